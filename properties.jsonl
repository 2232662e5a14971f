{"id": "C01", "title": "Allow-override decisions", "statement": "With effect some(where (p.eft == allow)) and a non-empty set of candidate rules, Enforce returns true exactly when at least one rule whose matcher evaluates to true has effect allow (no effect column counts as allow); otherwise false.", "quantifier": "all models with that effect, all policies of any length with well-formed rules, all requests, all matcher evaluators", "why_tests_cant": "The number of rules and the pattern of matches/effects is unbounded; tests fix one policy file.", "anchors": ["casbin/enforcer.cpp: Enforcer::m_enforce", "casbin/effect/default_effector.cpp: DefaultEffector::MergeEffects"]}
{"id": "C02", "title": "Deny-override decisions", "statement": "With effect !some(where (p.eft == deny)) and a non-empty set of candidate rules, Enforce returns false exactly when some matching rule has effect deny.", "quantifier": "all policies of any length, all requests, all matcher evaluators", "why_tests_cant": "Position of the deciding rule is unbounded.", "anchors": ["casbin/enforcer.cpp: Enforcer::m_enforce", "casbin/effect/default_effector.cpp: DefaultEffector::MergeEffects"]}
{"id": "C03", "title": "Allow-and-deny decisions", "statement": "With effect some(where (p.eft == allow)) && !some(where (p.eft == deny)), Enforce returns true exactly when some matching rule allows and no matching rule denies.", "quantifier": "all policies of any length, all requests, all matcher evaluators", "why_tests_cant": "Needs every combination of matching allow and deny rules.", "anchors": ["casbin/enforcer.cpp: Enforcer::m_enforce", "casbin/effect/default_effector.cpp: DefaultEffector::MergeEffects"]}
{"id": "C04", "title": "Priority decisions", "statement": "With effect priority(p.eft) || deny, Enforce returns the effect of the first rule in policy order that matches and has effect allow or deny; if there is none it returns false.", "quantifier": "all policies of any length, all requests, all matcher evaluators", "why_tests_cant": "The first deciding rule may be at any position.", "anchors": ["casbin/enforcer.cpp: Enforcer::m_enforce", "casbin/effect/default_effector.cpp: DefaultEffector::MergeEffects"]}
{"id": "C05", "title": "Unknown effect expressions are rejected", "statement": "If the effect expression is not one of the four supported texts, an enforcement that reaches rule evaluation raises an exception and never returns a decision.", "quantifier": "all effect strings, all policies, all requests", "why_tests_cant": "Infinitely many strings.", "anchors": ["casbin/effect/default_effector.cpp: DefaultEffector::MergeEffects"]}
{"id": "C06", "title": "Explanations are sound", "statement": "When EnforceEx reports an explanation it is a rule currently in the policy whose matcher evaluated to true and whose effect is the decision that was returned; the reported rule is the first deciding one, and no explanation is reported when no rule decided.", "quantifier": "all policies, requests, effects", "why_tests_cant": "Any rule of any policy can be the explanation.", "anchors": ["casbin/enforcer.cpp: Enforcer::m_enforce, Enforcer::EnforceEx", "casbin/effect/default_effector.cpp: DefaultEffector::MergeEffects"]}
{"id": "C07", "title": "Disabled enforcement allows everything", "statement": "After EnableEnforce(false), Enforce returns true for every request.", "quantifier": "all requests and states", "why_tests_cant": "Includes malformed requests that tests do not try.", "anchors": ["casbin/enforcer.cpp: Enforcer::EnableEnforce, Enforcer::Enforce, Enforcer::m_enforce"]}
{"id": "C08", "title": "Default deny", "statement": "With effect some(where (p.eft == allow)), a request that no stored rule matches is denied, in particular every request is denied when the policy is empty.", "quantifier": "all models with that effect, all policies, all requests", "why_tests_cant": "Negative statement over all requests.", "anchors": ["casbin/enforcer.cpp: Enforcer::m_enforce"]}
{"id": "C09", "title": "Rule order is irrelevant for the three override effects", "statement": "For the allow-override, deny-override and allow-and-deny effects, permuting the stored rules never changes a decision.", "quantifier": "all permutations of all policies", "why_tests_cant": "Factorially many orders of unboundedly long policies.", "anchors": ["casbin/enforcer.cpp: Enforcer::m_enforce", "casbin/effect/default_effector.cpp: DefaultEffector::MergeEffects"]}
{"id": "C10", "title": "Enforcement is a read", "statement": "Enforce never changes what the policy queries or role queries return, whatever the request, matcher and outcome (decision or exception).", "quantifier": "all states, requests, outcomes", "why_tests_cant": "Requires comparing the whole observable state before and after for all inputs.", "anchors": ["casbin/enforcer.cpp: Enforcer::m_enforce"]}
{"id": "C11", "title": "Enforcement is history independent", "statement": "The decision for a request depends only on the current model, policy, role links and request, not on which requests were evaluated before.", "quantifier": "all histories of earlier requests and policy changes", "why_tests_cant": "Quantifies over all histories; the evaluator object, its compiled expression, its variables and its registered functions persist between calls.", "anchors": ["casbin/model/evaluator.cpp: ExprtkEvaluator::Eval, ExprtkEvaluator::LoadGFunction, ExprtkEvaluator::AddIdentifier, ExprtkEvaluator::Clean", "casbin/enforcer.cpp: Enforcer::Enforce, Enforcer::m_enforce"]}
{"id": "C12", "title": "Batch enforcement is pointwise", "statement": "BatchEnforce returns exactly the list of results Enforce gives to each request in order.", "quantifier": "all request lists of any length", "why_tests_cant": "Unbounded batch sizes.", "anchors": ["casbin/enforcer.cpp: Enforcer::BatchEnforce, Enforcer::BatchEnforceWithMatcher"]}
{"id": "C13", "title": "Requests and rules of the wrong arity never allow", "statement": "A request with the wrong number of values is refused, and a stored rule with the wrong number of fields that is reached raises an exception rather than contributing to a decision.", "quantifier": "all requests and rules", "why_tests_cant": "All arities and positions.", "anchors": ["casbin/enforcer.cpp: Enforcer::EnforceWithMatcher, Enforcer::m_enforce"]}
{"id": "C14", "title": "Indexed and linear rule lookup agree", "statement": "For models whose matcher is the plain conjunction of field equalities (which select the hash-indexed rule store) decisions are the same as scanning all rules, for the model's matcher and for custom matchers passed to EnforceWithMatcher.", "quantifier": "all policies, requests and custom matchers", "why_tests_cant": "The optimisation must agree with the specification on all inputs.", "anchors": ["casbin/model/model.cpp: IsHashsetUsagePossible, Model::AddDef", "casbin/selected_policies.cpp: SelectedPolicies", "casbin/enforcer.cpp: Enforcer::m_enforce"]}
{"id": "C15", "title": "AddPolicy / HasPolicy / RemovePolicy laws", "statement": "AddPolicy returns true exactly when the rule was absent, afterwards HasPolicy is true and every other rule is untouched; RemovePolicy returns true exactly when it was present, afterwards the rule is absent and every other rule is untouched.", "quantifier": "all rules and all states", "why_tests_cant": "For-all over rules and states, including what must not change.", "anchors": ["casbin/model/model.cpp: Model::HasPolicy, Model::AddPolicy, Model::RemovePolicy", "casbin/management_api.cpp: Enforcer::AddPolicy, Enforcer::RemovePolicy"]}
{"id": "C16", "title": "Policies have set semantics", "statement": "No sequence of API calls starting from an empty policy makes the policy contain the same rule twice.", "quantifier": "all operation histories", "why_tests_cant": "Invariant over all histories.", "anchors": ["casbin/model/model.cpp: Model::AddPolicy, Model::AddPolicies, Model::UpdatePolicies", "casbin/internal_api.cpp"]}
{"id": "C17", "title": "AddPolicies is all or nothing", "statement": "AddPolicies adds all rules and returns true if none of them is present, otherwise it returns false and adds nothing.", "quantifier": "all batches and states", "why_tests_cant": "Unbounded batches.", "anchors": ["casbin/model/model.cpp: Model::AddPolicies", "casbin/internal_api.cpp: Enforcer::addPolicies"]}
{"id": "C18", "title": "RemovePolicies removes", "statement": "RemovePolicies removes all given rules and returns true if all are present; otherwise it changes nothing and returns false.", "quantifier": "all batches and states", "why_tests_cant": "Unbounded batches.", "anchors": ["casbin/internal_api.cpp: Enforcer::removePolicies", "casbin/model/model.cpp: Model::RemovePolicies"]}
{"id": "C19", "title": "UpdatePolicy and UpdatePolicies are atomic replacements", "statement": "UpdatePolicy(old,new) replaces old by new and returns true if old is present and new is absent; otherwise it returns false and changes nothing. UpdatePolicies does the same for lists.", "quantifier": "all rules, batches and states", "why_tests_cant": "All-or-nothing over all failure points in a batch.", "anchors": ["casbin/model/model.cpp: Model::UpdatePolicy, Model::UpdatePolicies", "casbin/internal_api.cpp: Enforcer::updatePolicy, Enforcer::updatePolicies"]}
{"id": "C20", "title": "Filtered get and filtered remove agree", "statement": "RemoveFilteredPolicy(i, values) removes exactly the rules GetFilteredPolicy(i, values) returns, keeps all others in order, and returns true exactly when it removed something; a rule qualifies when every non-empty filter value equals the corresponding field.", "quantifier": "all policies, indices, filters", "why_tests_cant": "Unbounded policies and filter lengths.", "anchors": ["casbin/model/model.cpp: Model::GetFilteredPolicy, Model::RemoveFilteredPolicy"]}
{"id": "C21", "title": "Field listings are exact and duplicate free", "statement": "GetAllSubjects/Objects/Actions/Roles (and the Named forms) return precisely the set of values of that field over the stored rules, each once.", "quantifier": "all policies", "why_tests_cant": "Unbounded policies.", "anchors": ["casbin/model/model.cpp: Model::GetValuesForFieldInPolicy, Model::GetValuesForFieldInPolicyAllTypes", "casbin/util/array_remove_duplicates.cpp: ArrayRemoveDuplicates"]}
{"id": "C22", "title": "Policy types are isolated", "statement": "An operation on one policy type never changes the rules of another policy type, and p-operations never change g rules.", "quantifier": "all operations, types, states", "why_tests_cant": "Frame condition over all operations.", "anchors": ["casbin/model/model.cpp", "casbin/internal_api.cpp", "casbin/management_api.cpp"]}
{"id": "C23", "title": "ClearPolicy forgets everything", "statement": "After ClearPolicy no rule of any type is stored and no role assignment is in force.", "quantifier": "all states", "why_tests_cant": "All states.", "anchors": ["casbin/model/model.cpp: Model::ClearPolicy", "casbin/enforcer.cpp: Enforcer::ClearPolicy"]}
{"id": "C24", "title": "Role inheritance is bounded reachability", "statement": "HasLink(a,b) is true exactly when a = b or b is reachable from a through at most max-hierarchy-level direct links (in the given domain). This is claimed for names of which no two coincide once written as domain::name (in particular for all names without a colon, and for all names when no domain is used).", "quantifier": "all link graphs including cycles, all names", "why_tests_cant": "Unbounded graphs, cyclic graphs.", "anchors": ["casbin/rbac/default_role_manager.cpp: Role::HasRole, DefaultRoleManager::HasLink"]}
{"id": "C25", "title": "Adding and deleting a link changes exactly that link", "statement": "AddLink makes exactly one direct link true; DeleteLink makes exactly one direct link false; all other direct links are untouched; Clear removes all. This is claimed for names of which no two coincide once written as domain::name (in particular for all names without a colon, and for all names when no domain is used).", "quantifier": "all graphs and names, all histories", "why_tests_cant": "Frame condition over all graphs.", "anchors": ["casbin/rbac/default_role_manager.cpp: DefaultRoleManager::AddLink, DefaultRoleManager::DeleteLink, DefaultRoleManager::Clear, Role::AddRole, Role::DeleteRole"]}
{"id": "C26", "title": "Domains are isolated", "statement": "Links in one domain never influence role queries in another domain or without domain.", "quantifier": "all domain names, names and graphs", "why_tests_cant": "All strings, including ones containing the separator.", "anchors": ["casbin/rbac/default_role_manager.cpp"]}
{"id": "C27", "title": "GetRoles and GetUsers are converse", "statement": "In every domain, r is in GetRoles(u) exactly when u is in GetUsers(r), and both are the direct links. This is claimed for names of which no two coincide once written as domain::name (in particular for all names without a colon, and for all names when no domain is used).", "quantifier": "all graphs", "why_tests_cant": "All graphs.", "anchors": ["casbin/rbac/default_role_manager.cpp: DefaultRoleManager::GetRoles, DefaultRoleManager::GetUsers"]}
{"id": "C28", "title": "Implicit roles are the transitive closure", "statement": "GetImplicitRolesForUser terminates on every graph, cyclic ones included, and returns every role reachable from the user exactly once.", "quantifier": "all graphs and users", "why_tests_cant": "Termination and exactness over all graphs.", "anchors": ["casbin/rbac_api.cpp: Enforcer::GetImplicitRolesForUser"]}
{"id": "C29", "title": "Implicit roles and enforcement agree", "statement": "A role is listed by GetImplicitRolesForUser exactly when the matcher's g(user, role) holds for it.", "quantifier": "all graphs", "why_tests_cant": "Depends on unbounded chain lengths.", "anchors": ["casbin/rbac_api.cpp: Enforcer::GetImplicitRolesForUser", "casbin/rbac/default_role_manager.cpp: DefaultRoleManager::HasLink"]}
{"id": "C30", "title": "Role links mirror the grouping policy", "statement": "With automatic role-link building on, after any sequence of API calls the direct role links are exactly those listed by the grouping policy.", "quantifier": "all histories of API calls", "why_tests_cant": "Invariant over all histories.", "anchors": ["casbin/management_api.cpp: Enforcer::AddNamedGroupingPolicy, Enforcer::RemoveNamedGroupingPolicy, Enforcer::RemoveFilteredNamedGroupingPolicy", "casbin/internal_api.cpp", "casbin/model/assertion.cpp: Assertion::BuildRoleLinks, Assertion::BuildIncrementalRoleLinks"]}
{"id": "C31", "title": "Revoking a role revokes it", "statement": "After DeleteRoleForUser (or RemoveGroupingPolicy) returns true the user has that direct role no longer.", "quantifier": "all states, users, roles, with automatic building on or off", "why_tests_cant": "All states and flag settings.", "anchors": ["casbin/internal_api.cpp: Enforcer::removePolicy", "casbin/management_api.cpp: Enforcer::RemoveNamedGroupingPolicy"]}
{"id": "C32", "title": "DeleteUser and DeleteRole leave no trace", "statement": "After DeleteUser(u) no grouping rule assigns u a role and no p rule names u as subject; after DeleteRole(r) no grouping rule assigns r and no p rule names r as subject; other rules are kept.", "quantifier": "all policies", "why_tests_cant": "All policies.", "anchors": ["casbin/rbac_api.cpp: Enforcer::DeleteUser, Enforcer::DeleteRole"]}
{"id": "C33", "title": "Implicit permissions are exact", "statement": "GetImplicitPermissionsForUser returns exactly the p rules whose subject is the user or one of its implicit roles.", "quantifier": "all graphs and policies", "why_tests_cant": "All graphs and policies.", "anchors": ["casbin/rbac_api.cpp: Enforcer::GetImplicitPermissionsForUser"]}
{"id": "C34", "title": "Implicit users for a permission are exact", "statement": "GetImplicitUsersForPermission returns exactly the subjects that are not roles and whose request for the permission is allowed.", "quantifier": "all policies", "why_tests_cant": "All policies.", "anchors": ["casbin/rbac_api.cpp: Enforcer::GetImplicitUsersForPermission"]}
{"id": "C35", "title": "Role definitions are separate", "statement": "Assignments made under g2 never affect matchers that use g.", "quantifier": "all policies", "why_tests_cant": "All policies.", "anchors": ["casbin/model/assertion.cpp: Assertion::BuildRoleLinks", "casbin/rbac/default_role_manager.cpp", "casbin/enforcer.cpp: Enforcer::BuildRoleLinks"]}
{"id": "C36", "title": "End-to-end RBAC", "statement": "With the standard RBAC model, Enforce(sub,obj,act) is true exactly when some p rule (s,obj,act) is stored with s equal to sub or reachable from it through at most ten grouping rules.", "quantifier": "all policies, all requests, all role graphs", "why_tests_cant": "Combines unbounded policy, graph and request.", "anchors": ["casbin/enforcer.cpp: Enforcer::m_enforce", "casbin/rbac/default_role_manager.cpp: DefaultRoleManager::HasLink", "casbin/effect/default_effector.cpp"]}
{"id": "C37", "title": "Save then load is the identity", "statement": "Saving the policy through the file adapter and loading it back gives the same rules per type in the same order, for values that contain no separators and no surrounding blanks.", "quantifier": "all policies over admissible values", "why_tests_cant": "All strings and policy sizes.", "anchors": ["casbin/persist/file_adapter/file_adapter.cpp: FileAdapter::SavePolicy, FileAdapter::LoadPolicyFile", "casbin/persist/adapter.cpp: LoadPolicyLine", "casbin/enforcer.cpp: Enforcer::SavePolicy, Enforcer::LoadPolicy"]}
{"id": "C38", "title": "Loading replaces", "statement": "LoadPolicy makes the policy exactly the stored one, independent of what was in memory before; loading twice equals loading once.", "quantifier": "all in-memory states and stored texts", "why_tests_cant": "All prior states.", "anchors": ["casbin/enforcer.cpp: Enforcer::LoadPolicy", "casbin/model/model.cpp: Model::ClearPolicy"]}
{"id": "C39", "title": "A failed load keeps the old policy", "statement": "If LoadPolicy raises an exception the policy in force is the one from before the call.", "quantifier": "all adapters, all failure points", "why_tests_cant": "All failure points.", "anchors": ["casbin/enforcer.cpp: Enforcer::LoadPolicy"]}
{"id": "C40", "title": "Saving is crash atomic", "statement": "If the process stops at any point during SavePolicy the file holds either the complete old policy or the complete new policy.", "quantifier": "all crash points, all policies", "why_tests_cant": "Crash points cannot be enumerated by unit tests.", "anchors": ["casbin/persist/file_adapter/file_adapter.cpp: FileAdapter::SavePolicyFile"]}
{"id": "C41", "title": "Auto-save forwards exactly the successful changes", "statement": "With auto-save on and an adapter that supports it, every call that changes the policy in memory is forwarded to the adapter with the same arguments exactly once and in order, calls that change nothing are not forwarded, and with auto-save off nothing is forwarded.", "quantifier": "all histories, all adapters", "why_tests_cant": "All histories and adapter behaviours.", "anchors": ["casbin/internal_api.cpp"]}
{"id": "C42", "title": "The watcher is notified exactly for changes", "statement": "With a watcher set and notification on, each successful change triggers exactly one notification, a failed one none, and with notification off none.", "quantifier": "all histories", "why_tests_cant": "All histories.", "anchors": ["casbin/internal_api.cpp", "casbin/enforcer.cpp: Enforcer::SavePolicy", "casbin/util/is_instance_of.cpp: IsInstanceOf"]}
{"id": "C43", "title": "Filtered loading loads exactly the matching lines", "statement": "LoadFilteredPolicy loads exactly those policy lines that match the filter, and afterwards SavePolicy is refused.", "quantifier": "all filters and files", "why_tests_cant": "All filters and files.", "anchors": ["casbin/persist/file_adapter/filtered_file_adapter.cpp: FilteredFileAdapter", "casbin/enforcer.cpp: Enforcer::LoadFilteredPolicy, Enforcer::SavePolicy"]}
{"id": "C44", "title": "Comments and blank lines in policy text are ignored", "statement": "Inserting empty lines or lines starting with # anywhere in a policy text does not change the policy loaded from it.", "quantifier": "all texts and positions", "why_tests_cant": "All texts and insertion points.", "anchors": ["casbin/persist/adapter.cpp: LoadPolicyLine", "casbin/persist/string_adapter.cpp: StringAdapter::LoadPolicy", "casbin/persist/file_adapter/file_adapter.cpp: FileAdapter::LoadPolicyFile"]}
{"id": "C45", "title": "Model loading is sound", "statement": "Loading a model succeeds exactly when request, policy, effect and matcher definitions are present; after success the enforcer never dereferences a missing definition.", "quantifier": "all model texts", "why_tests_cant": "All texts.", "anchors": ["casbin/model/model.cpp: Model::LoadModelFromConfig, LoadSection, LoadAssertion, Model::AddDef, Model::HasSection"]}
{"id": "C46", "title": "Configuration text is read as written", "statement": "Each option in a section has the last value written for it there, surrounding blanks stripped; comment and blank lines are ignored; options of other sections are unaffected.", "quantifier": "all texts", "why_tests_cant": "All texts.", "anchors": ["casbin/config/config.cpp: Config::ParseBuffer, Config::AddConfig, Config::Get, Config::Set"]}
{"id": "C47", "title": "Cached decisions equal uncached ones", "statement": "While model, policy and roles do not change, the cached enforcer returns what the plain enforcer returns, for every sequence of requests.", "quantifier": "all sequences of requests", "why_tests_cant": "All request sequences, including key collisions.", "anchors": ["casbin/enforcer_cached.cpp: CachedEnforcer::Enforce, CachedEnforcer::EnforceWithMatcher, CachedEnforcer::getCachedResult, CachedEnforcer::setCachedResult"]}
{"id": "C48", "title": "Cached decisions reflect policy changes", "statement": "After a policy change the cached enforcer's decisions are those of the changed policy (at least after InvalidateCache).", "quantifier": "all histories", "why_tests_cant": "All histories.", "anchors": ["casbin/enforcer_cached.cpp: CachedEnforcer::InvalidateCache, CachedEnforcer::Enforce"]}
{"id": "C49", "title": "Synchronised enforcer is linearisable", "statement": "Every concurrent execution of locked operations of the synchronised enforcer has the effect and results of executing them one at a time in some order consistent with real time.", "quantifier": "all threads, programs and schedules", "why_tests_cant": "All interleavings.", "anchors": ["casbin/enforcer_synced.cpp: SyncedEnforcer"]}
{"id": "C50", "title": "Synchronised enforcer never locks itself out", "statement": "No single call on the synchronised enforcer tries to take the policy lock it already holds.", "quantifier": "all operations and flag settings", "why_tests_cant": "Depends on virtual dispatch through the call graph; a hang or UB is not a test result.", "anchors": ["casbin/enforcer_synced.cpp: SyncedEnforcer", "casbin/management_api.cpp", "casbin/rbac_api.cpp"]}
{"id": "C51", "title": "Stopping the ticker terminates", "statement": "StopAutoLoadPolicy (Ticker::stop) terminates under every schedule and afterwards no further load starts.", "quantifier": "all schedules", "why_tests_cant": "All interleavings.", "anchors": ["casbin/util/ticker.cpp: Ticker::stop, Ticker::timer_loop"]}
{"id": "C52", "title": "Configuration lock is always released", "statement": "After any call on Config, whether it returns or throws, a following call can proceed.", "quantifier": "all texts and call sequences", "why_tests_cant": "Exceptional paths for all texts.", "anchors": ["casbin/config/config.cpp: Config::Parse, Config::Set"]}
{"id": "C53", "title": "keyMatch semantics", "statement": "KeyMatch(k1,k2): without * in k2 equality; with * at position i, k1 starts with the first i characters of k2 (a k1 shorter than i must equal the prefix).", "quantifier": "all strings", "why_tests_cant": "All strings.", "anchors": ["casbin/util/built_in_functions.cpp: KeyMatch"]}
{"id": "C54", "title": "keyGet agrees with keyMatch", "statement": "KeyGet returns the part of k1 matched by * of k2, so that prefix + result = k1 whenever the wildcard matches, and the empty string otherwise.", "quantifier": "all strings", "why_tests_cant": "All strings.", "anchors": ["casbin/util/built_in_functions.cpp: KeyGet"]}
{"id": "C55", "title": "keyMatch2/keyMatch3 placeholders match one path segment", "statement": "A :name (keyMatch2) or {name} (keyMatch3) placeholder matches exactly one non-empty slash-free segment, /* matches any rest, and everything else matches itself, with the whole key consumed.", "quantifier": "all patterns of literal segments, placeholders and wildcards, all keys", "why_tests_cant": "All patterns and keys.", "anchors": ["casbin/util/built_in_functions.cpp: KeyMatch2, KeyMatch3, KeyMatch4"]}
{"id": "C56", "title": "IPv4 CIDR containment is exact", "statement": "For a well-formed IPv4 address and an IPv4 CIDR a.b.c.d/n, ipMatch is true exactly when the first n bits agree.", "quantifier": "all 2^32 addresses, networks and all prefix lengths", "why_tests_cant": "2^69 cases.", "anchors": ["casbin/util/built_in_functions.cpp: IPMatch", "casbin/ip_parser/parser/IPNet.cpp: IPNet::contains", "casbin/ip_parser/parser/CIDRMask.cpp: CIDRMask", "casbin/ip_parser/parser/IP.cpp: IP::Mask"]}
{"id": "C57", "title": "IPv4 parsing is exact", "statement": "The IPv4 parser accepts exactly four dot separated decimal numbers 0..255 with nothing around them and returns those numbers.", "quantifier": "all strings", "why_tests_cant": "All strings.", "anchors": ["casbin/ip_parser/parser/parseIPv4.cpp: parseIPv4", "casbin/ip_parser/parser/dtoi.cpp: dtoi"]}
{"id": "C58", "title": "IPv6 parsing is exact", "statement": "The IPv6 parser accepts exactly the textual forms of eight 16-bit groups with at most one :: and optional trailing IPv4, and returns the 128-bit address.", "quantifier": "all strings", "why_tests_cant": "All strings.", "anchors": ["casbin/ip_parser/parser/parseIPv6.cpp: parseIPv6", "casbin/ip_parser/parser/xtoi.cpp: xtoi"]}
{"id": "C59", "title": "ipMatch accepts addresses as well as networks", "statement": "ipMatch(ip1, ip2) with a plain address ip2 compares the addresses; IPv4 written as IPv4-mapped IPv6 is the same address; no input causes undefined behaviour.", "quantifier": "all strings", "why_tests_cant": "All strings.", "anchors": ["casbin/util/built_in_functions.cpp: IPMatch", "casbin/ip_parser/parser/IP.cpp: IP::To4, IP::Equal"]}
{"id": "C60", "title": "String utilities obey their laws", "statement": "Split and Join are inverse on separator-free parts; Trim is idempotent and removes exactly the surrounding blanks; RemoveComments cuts at the first #; SetSubtract is set difference. FindAllOccurences gives, in ascending order, occurrences that do not overlap, and every other occurrence overlaps one that begins before it.", "quantifier": "all strings and lists", "why_tests_cant": "All strings.", "anchors": ["casbin/util/split.cpp: Split", "casbin/util/join.cpp: Join", "casbin/util/trim.cpp: Trim", "casbin/util/remove_comments.cpp: RemoveComments", "casbin/util/set_subtract.cpp: SetSubtract", "casbin/util/find_all_occurences.cpp: FindAllOccurences"]}
{"id": "C61", "title": "eval() rules are substituted exactly", "statement": "In a matcher with eval(x), each occurrence of eval(x) is replaced by the parenthesised value of x of the rule and the rest of the matcher is unchanged.", "quantifier": "all matchers and rule values", "why_tests_cant": "All strings.", "anchors": ["casbin/util/eval.cpp: HasEval, ReplaceEvalWithMap, GetEvalValue"]}
{"id": "C62", "title": "Rule comparison", "statement": "Two rules are considered equal by the policy store exactly when they have the same fields in the same order.", "quantifier": "all rules", "why_tests_cant": "All rules.", "anchors": ["casbin/util/array_equals.cpp: ArrayEquals", "casbin/model/model.cpp: Model::HasPolicy"]}
{"id": "C63", "title": "Assertion escaping", "statement": "EscapeAssertion replaces the dot of every variable access r.x / p.x by an underscore and changes nothing else.", "quantifier": "all strings", "why_tests_cant": "All strings.", "anchors": ["casbin/util/escape_assertion.cpp: EscapeAssertion"]}
{"id": "C64", "title": "Undefined behaviour is excluded for well-formed use", "statement": "With a loaded model, declared policy types and rules and filters within the declared arity, no call of the enforcer has undefined behaviour, whether it succeeds or throws, at any point of any history.", "quantifier": "all operations on all well-formed states", "why_tests_cant": "All states and arguments.", "anchors": ["casbin/model/model.cpp", "casbin/internal_api.cpp", "casbin/management_api.cpp", "casbin/rbac_api.cpp"]}
{"id": "C65", "title": "Permission queries are consistent with edits", "statement": "After AddPermissionForUser(u,perm) HasPermissionForUser(u,perm) holds and GetPermissionsForUser(u) lists it; after DeletePermissionForUser it does not; DeletePermission removes it for everyone.", "quantifier": "all users, permissions, states", "why_tests_cant": "All states.", "anchors": ["casbin/rbac_api.cpp: Enforcer::AddPermissionForUser, Enforcer::DeletePermissionForUser, Enforcer::DeletePermission, Enforcer::GetPermissionsForUser, Enforcer::HasPermissionForUser"]}
{"id": "C66", "title": "keyGet2 and keyGet3 return the value of a placeholder", "statement": "KeyGet2/KeyGet3(key, pattern, name) return the part of the key matched by the first placeholder called name when the key matches the pattern, and the empty string when it does not match or there is no such placeholder.", "quantifier": "all patterns of literal text, placeholders and wildcards, all keys and names", "why_tests_cant": "All patterns and keys.", "anchors": ["casbin/util/built_in_functions.cpp: KeyGet2, KeyGet3"]}
{"id": "C67", "title": "keyMatch4 binds repeated placeholders", "statement": "KeyMatch4 is true exactly when the key matches the pattern with equal values for placeholders of equal name, and it answers for every key and pattern.", "quantifier": "all patterns of literal text, placeholders and wildcards, all keys", "why_tests_cant": "All patterns and keys.", "anchors": ["casbin/util/built_in_functions.cpp: KeyMatch4"]}
{"id": "C68", "title": "IPv6 CIDR containment is exact", "statement": "For a well-formed IPv6 address and an IPv6 CIDR, ipMatch is true exactly when the first n bits agree; an address of one family is in no network of the other.", "quantifier": "all IPv6 addresses and networks in any of their textual forms, all prefix lengths", "why_tests_cant": "2^263 cases.", "anchors": ["casbin/util/built_in_functions.cpp: IPMatch", "casbin/ip_parser/parser/IPNet.cpp: IPNet::contains", "casbin/ip_parser/parser/CIDRMask.cpp: CIDRMask", "casbin/ip_parser/parser/parseIPv6.cpp: parseIPv6"]}
{"id": "C69", "title": "End-to-end RBAC with domains", "statement": "With the model of rbac_with_domains_model.conf, Enforce(sub, dom, obj, act) is true exactly if some stored rule (s, dom, obj, act) exists whose subject s is sub or is inherited by sub through grouping rules of the domain dom; rules and roles of other domains have no influence, after every history of management calls.", "quantifier": "all policies, role graphs, domains, requests and histories of calls", "why_tests_cant": "Unit tests try a few policies; the claim is about all policies, role graphs and histories.", "anchors": ["examples/rbac_with_domains_model.conf", "casbin/enforcer.cpp: Enforcer::m_enforce", "casbin/rbac/default_role_manager.cpp: HasLink", "casbin/model/evaluator.cpp: LoadGFunction"]}
{"id": "C70", "title": "End-to-end access control lists", "statement": "With the model of basic_model.conf, Enforce(sub, obj, act) is true exactly if (sub, obj, act) is a stored rule, whatever kind of store the library chose, after every history of management calls.", "quantifier": "all policies, requests and histories of calls", "why_tests_cant": "Unit tests try a few policies; the claim is about all policies, role graphs and histories.", "anchors": ["examples/basic_model.conf", "casbin/enforcer.cpp: Enforcer::m_enforce", "casbin/model/model.cpp: AddDef, IsHashsetUsagePossible", "casbin/selected_policies.cpp: SelectedPolicies"]}
{"id": "C71", "title": "End-to-end RBAC with allow and deny rules", "statement": "With rbac_with_deny_model.conf a request is allowed exactly if a rule for a role of the subject allows it and none denies it; with rbac_with_not_deny_model.conf exactly if none denies it; with priority_model.conf exactly if the first such rule that says allow or deny says allow; after every history of management calls.", "quantifier": "all policies, rule orders, role graphs, requests and histories of calls", "why_tests_cant": "Unit tests try a few policies; the claim is about all policies, role graphs and histories.", "anchors": ["examples/rbac_with_deny_model.conf", "examples/rbac_with_not_deny_model.conf", "examples/priority_model.conf", "casbin/effect/default_effector.cpp: MergeEffects"]}
{"id": "C72", "title": "End-to-end RBAC with resource roles", "statement": "With rbac_with_resource_roles_model.conf Enforce(sub, obj, act) is true exactly if some stored rule (s, o, act) exists such that sub has the role s by the rules of g and obj has the role o by the rules of g2, after every history of management calls.", "quantifier": "all policies, role graphs, requests and histories of calls", "why_tests_cant": "Unit tests try a few policies; the claim is about all policies, role graphs and histories.", "anchors": ["examples/rbac_with_resource_roles_model.conf", "casbin/model/model.cpp: BuildRoleLinks", "casbin/model/assertion.cpp: BuildRoleLinks"]}
{"id": "C73", "title": "Giving and taking roles", "statement": "AddRoleForUser, AddRoleForUserInDomain, AddRolesForUser, DeleteRoleForUser, DeleteRoleForUserInDomain and DeleteRolesForUser change the roles listed by GetRolesForUser(InDomain) and the users listed by GetUsersForRole(InDomain) by exactly the named assignments and no others, and return true exactly if something changed; HasRoleForUser agrees with the listing.", "quantifier": "all role graphs, users, roles, domains and histories", "why_tests_cant": "Unit tests try a few calls on a few policies; the claim is about every call in every reachable state.", "anchors": ["casbin/rbac_api.cpp: AddRoleForUser, AddRolesForUser, DeleteRoleForUser, DeleteRolesForUser, HasRoleForUser", "casbin/rbac_api_with_domains.cpp: AddRoleForUserInDomain, DeleteRoleForUserInDomain, GetRolesForUserInDomain, GetUsersForRoleInDomain"]}
{"id": "C74", "title": "Policy calls in every state", "statement": "In every state, every query, add, remove, update and filter call of the management and RBAC API acts on the policy type it names (p or g when it names none) as follows, and on nothing else: rules are compared up to the order of their fields; an add appends the rule unless it is there and returns whether it was not; a remove takes out the first such rule and returns whether there was one; a batch add is all or nothing; an update takes out the old rule and then adds the new one; a filtered remove keeps exactly the rules that do not match, in order.", "quantifier": "all enforcers, stored policies (with rearranged or repeated rules too), calls and arguments", "why_tests_cant": "Unit tests try a few calls on a few policies; the claim is about every call in every reachable state.", "anchors": ["casbin/management_api.cpp", "casbin/rbac_api.cpp", "casbin/internal_api.cpp", "casbin/model/model.cpp: AddPolicy, AddPolicies, RemovePolicy, UpdatePolicy, UpdatePolicies, RemoveFilteredPolicy, HasPolicy"]}
{"id": "C75", "title": "Regular expressions in matchers", "statement": "regexMatch(key, pattern) is true exactly if the whole key is among the texts the pattern describes in the ECMAScript grammar (literal characters, escapes, character classes, groups, alternatives, star, plus, question mark, counts, and ^ and $ at the ends of alternatives); a pattern without special characters describes itself only, and (a)|(b)|... describes exactly the listed texts.", "quantifier": "all keys and all patterns of the grammar", "why_tests_cant": "Unit tests try a few patterns and requests; the claim is about every pattern, request and policy history.", "anchors": ["casbin/util/built_in_functions.cpp: RegexMatch", "include/casbin/model/exprtk_config.h: ExprtkMatchFunction"]}
{"id": "C76", "title": "Decisions with pattern functions", "statement": "With the example models for keyMatch, keyMatch2, ipMatch and role models with regexMatch, after any history of calls, a request is allowed exactly if some stored rule covers it: its key pattern covers the object, its regular expression describes the action, its network contains the address, its roles are roles of the subject and object.", "quantifier": "all policies, requests and histories of management calls", "why_tests_cant": "Unit tests try a few patterns and requests; the claim is about every pattern, request and policy history.", "anchors": ["casbin/model/evaluator.cpp: LoadFunctions", "include/casbin/model/exprtk_config.h: ExprtkFunctionFactory, ExprtkMatchFunction", "casbin/util/built_in_functions.cpp", "casbin/enforcer.cpp: m_enforce", "examples/keymatch_model.conf, keymatch2_model.conf, ipmatch_model.conf, rbac_with_pattern_model.conf"]}
{"id": "C77", "title": "Decisions of the other example models", "statement": "A model whose matcher compares all fields, whatever they are, allows exactly the stored rules; with the root model the subject root is always allowed and the others exactly as the rules say; with roles of objects within domains a request is allowed exactly if a rule of the subject grants the action on a role the object has in that domain.  This holds after any history of calls.", "quantifier": "all policies, requests and histories of management calls", "why_tests_cant": "Unit tests try a few patterns and requests; the claim is about every pattern, request and policy history.", "anchors": ["casbin/enforcer.cpp: m_enforce", "casbin/selected_policies.cpp", "examples/basic_without_users_model.conf, basic_without_resources_model.conf, basic_with_root_model.conf, rbac_with_all_pattern_model.conf"]}
{"id": "C78", "title": "From the files to the decisions", "statement": "An enforcer made from a model file and a policy file, by the constructor or by InitWithFile, allows exactly the requests the policy file grants: for each example model, those for which the file lists a rule (with the effect required) that is reached from the subject by the grouping rules of the file.  Reloading the model and the policy has the same result whatever was done before; a model file that is not a model changes nothing; without a policy file there are no rules.", "quantifier": "all policy files, requests and states before the call", "why_tests_cant": "Unit tests load the example files and try a few requests; the claim is about every policy file and every request.", "anchors": ["casbin/enforcer.cpp: Enforcer (constructors), InitWithFile, InitWithAdapter, InitWithModelAndAdapter, Initialize, LoadModel, LoadPolicy", "casbin/model/model.cpp: LoadModel, LoadModelFromConfig", "casbin/config/config.cpp: ParseBuffer", "casbin/persist/file_adapter/file_adapter.cpp: LoadPolicy", "examples/*.conf"]}
{"id": "C79", "title": "Options are read as they were last set", "statement": "After any sequence of Set calls on a configuration, reading an option gives the value it was last set to (or the value from the text if it was never set), whatever else was set in between, also on other configurations; typed reads return the boolean, the list or the integer the text stands for, and an empty key is refused without effect.", "quantifier": "all configurations, all histories of settings, all values", "why_tests_cant": "Histories of any length and values of any form, including numbers at the limits of int.", "anchors": ["casbin/config/config.cpp: Set, Get, GetBool, GetInt, GetStrings, AddConfig", "include/casbin/config/config.h"]}
{"id": "C80", "title": "A switch stays where it was put and does what it says", "statement": "EnableEnforce, EnableAutoSave, EnableAutoBuildRoleLinks and EnableAutoNotifyWatcher change only their switch; it stays there through every later history of calls, including failing ones, until it is set again or the model is replaced. With enforcement off every well-formed request is allowed with an empty explanation; with notification off the watcher hears nothing except from SavePolicy; with link building off LoadPolicy leaves the role links alone, and with it on LoadPolicy equals loading without it followed by BuildRoleLinks.", "quantifier": "all states, all histories of calls, all requests, matchers, adapters", "why_tests_cant": "The switch must survive every sequence of calls, and its effect must not depend on what happened in between.", "anchors": ["casbin/enforcer.cpp: EnableEnforce, EnableAutoSave, EnableAutoBuildRoleLinks, EnableAutoNotifyWatcher, Initialize, SetModel, LoadPolicy, m_enforce", "casbin/internal_api.cpp", "casbin/management_api.cpp"]}
{"id": "C81", "title": "Names that match a pattern have the roles of the pattern", "statement": "With a matching function, and when the names given to AddLink and DeleteLink (patterns, groups, roles) are told apart from the concrete names only asked about, HasLink holds exactly for a chain of links, or for a name that matches a known name of a link and a chain from there, within the level limit; the answers do not depend on which questions were asked before or between; GetRoles lists the links of a link name and the matched names of a concrete name.", "quantifier": "all matching functions, level limits, histories of AddLink, DeleteLink, Clear, HasLink, GetRoles and GetUsers, all names and domains", "why_tests_cant": "Roles are created on demand by questions, so the answer could depend on every earlier call; tests try a few orders.", "anchors": ["casbin/rbac/default_role_manager.cpp: CreateRole, HasRole, HasLink, GetRoles, GetUsers, AddLink, DeleteLink, AddMatchingFunc"]}
{"id": "C82", "title": "Decisions with patterns in the grouping policy", "statement": "An enforcer that was given a matching function and then built its role links allows a request exactly when the stored rules grant it, where a role function holds for a chain of listed grouping rules or for a name matching a name of a listed grouping rule and a chain from there. This stays so after any history of calls in order: policies and grouping rules added and removed, loading, enforcing, asking for roles.", "quantifier": "all models and matchers with a reading, all matching functions that tell patterns apart from concrete names, all such histories and requests", "why_tests_cant": "The links are kept incrementally while questions create roles in between; the decision must follow the current grouping rules after every sequence of edits.", "anchors": ["casbin/management_api.cpp: AddNamedMatchingFunc, AddNamedGroupingPolicy, RemoveNamedGroupingPolicy", "casbin/rbac/default_role_manager.cpp", "casbin/enforcer.cpp: BuildRoleLinks, LoadPolicy, m_enforce", "casbin/model/assertion.cpp: BuildRoleLinks, BuildIncrementalRoleLinks"]}
{"id": "C83", "title": "A caller's effector decides", "statement": "With an effector set by the caller, an enforcement asks it once for each rule in order, passing the effects and match results so far, until it answers something other than indeterminate or the rules are over; its last answer is the decision and its explain index selects the explanation. With no rules it is asked once about the matcher itself; what it throws reaches the caller; the enforcer stays usable. With the default effector this is the enforcement of the other properties.", "quantifier": "all effectors with any state, all models, matchers, policies and requests", "why_tests_cant": "An effector is any code of the caller, and the loop must treat every sequence of its answers right.", "anchors": ["casbin/enforcer.cpp: SetEffector, m_enforce", "include/casbin/effect/effector.h: Effector::MergeEffects"]}
{"id": "C84", "title": "Replacing the role manager of an enforcer in use", "statement": "After SetRoleManager, BuildRoleLinks and SetEvaluator the enforcer decides by the same stored rules through the new role manager, with its level limit and matching function. Before the first request SetEvaluator is not needed. Afterwards it is: without it the matcher keeps asking the old manager, so roles taken away still give access and roles given do not.", "quantifier": "all enforcers in order, all policies, all new managers", "why_tests_cant": "A stale pointer shows only in particular orders of requests, replacements and edits.", "anchors": ["casbin/enforcer.cpp: SetRoleManager, BuildRoleLinks, SetEvaluator, m_enforce", "include/casbin/model/exprtk_config.h: ExprtkGFunction"]}
{"id": "C85", "title": "Logging does not change decisions", "statement": "Whatever EnableLog is called with and whatever logger is installed, every call answers as it would without logging, and EnableLog(true) makes the enforcer log. PrintRoles may be called at any time.", "quantifier": "all histories of enforcer calls, EnableLog and SetLogger, all requests and policies", "why_tests_cant": "Tests run with the log off; whether the log can interfere depends on the calls before and on the policy.", "anchors": ["include/casbin/log/default_logger.h: DefaultLogger::Print, EnableLog", "include/casbin/log/log_util.h: LogUtil::SetLogger, GetLogger, LogPrint", "casbin/enforcer.cpp: EnableLog, m_enforce", "casbin/rbac/default_role_manager.cpp: PrintRoles"]}
{"id": "C86", "title": "Printed addresses and networks read back", "statement": "The text of an address is one that is read as the same address; the text of the address and of the mask of a network have the first bits of the network, and the ones of the prefix, and zeros after that.", "quantifier": "all texts of addresses and networks", "why_tests_cant": "There are 2^32 addresses with many texts each and 33 prefixes; tests print a few.", "anchors": ["casbin/ip_parser/parser/IP.cpp: IP::toString", "casbin/ip_parser/parser/IPNet.cpp: IPNet::NETIP_toString, IPNet::IPMask_toString", "casbin/ip_parser/parser/parseCIDR.cpp: parseCIDR"]}
{"id": "C87", "title": "Requests by name are the requests by position", "statement": "A request given as a map that gives every declared field once and nothing else is answered, explanation included, as the same request given by position, whatever the order of the map; a field the map leaves out or gives as JSON has the value of the request before it.", "quantifier": "all models, policies, matchers, maps in any order and histories of requests by position and by name", "why_tests_cant": "Tests try maps in one order and on a fresh enforcer; which value a missing field has depends on all requests before.", "anchors": ["casbin/enforcer.cpp: EnforceExWithMatcher(DataMap), EnforceWithMatcher(DataMap), m_enforce", "casbin/model/evaluator.cpp: PushObjectString"]}
{"id": "C88", "title": "Copies of an enforcer are one enforcer with separate switches", "statement": "Copying an Enforcer (or assigning one to another) copies pointers: whatever calls are made through whichever copy, in any order, all copies list the same rules and roles, give every request the same answer and explanation, and in the RBAC model decide by the rules they share, while each keeps its own switches. After SetModel through one of them, its further calls no longer change the rules of the others. SetAdapter, SetWatcher and SetEvaluator through one of them leave the others exactly as they are. Without these calls and SetModel all copies keep one adapter and one watcher: what is told to the adapter of a copy is told to the adapter of the original. A copy is not a snapshot: a change through it changes what the original answers. A second enforcer constructed on the Model of the first shares the rules but not the roles, the adapter, the watcher or the switches (it starts with the defaults), so the two can answer the same request differently.", "quantifier": "all enforcers of a standard model kept in step with their role manager, all histories of calls through any number of copies, copies and assignments, all requests and matchers without eval", "why_tests_cant": "tests use one enforcer each; which part of the state is shared shows only in interleavings of calls through several objects", "anchors": ["include/casbin/enforcer.h: Enforcer members", "casbin/enforcer.cpp: InitWithModelAndAdapter, Initialize, SetModel, GetModel", "casbin/enforcer_cached.cpp: copy constructor", "casbin/model/assertion.cpp: BuildIncrementalRoleLinks"]}
{"id": "C89", "title": "When the storage refuses a change", "statement": "With automatic saving on, if the adapter refuses a change (throws anything but UnsupportedOperationException) the call does not answer true, the watcher is not told and the adapter's exception reaches the caller; if it accepts, the call answers true and the watcher hears once. A refused change is not in force. What SavePolicy or LoadPolicy of the adapter throws reaches the caller too; after a refused save the rules are as before.", "quantifier": "all calls that are forwarded to the adapter, all adapters of the caller with any memory, all states", "why_tests_cant": "tests use adapters that never fail; what is in force after a failure depends on the state and the failing point", "anchors": ["casbin/internal_api.cpp: addPolicy, addPolicies, removePolicy, removePolicies, removeFilteredPolicy", "casbin/management_api.cpp: AddNamedGroupingPolicy, RemoveNamedGroupingPolicy", "casbin/enforcer.cpp: LoadPolicy, SavePolicy"]}
{"id": "C90", "title": "Several enforcers over one policy file", "statement": "Let several enforcers use the same policy file. When one of them saves, then, as long as nobody saves again and whatever else anybody calls, every enforcer that loads from that file holds exactly the rules the first one had when it saved, of every policy type, so any two that load agree. A change that was not saved is never seen by another enforcer: an enforcer whose fellows do not save is what its own calls make of it. A rule one of them has added and saved is not lost when another one saves.", "quantifier": "all numbers of enforcers, all policies that a file can carry, all histories of calls through any of them, in any order", "why_tests_cant": "a test runs one interleaving of a few instances; the claim is about every history between a save and a load", "anchors": ["casbin/persist/file_adapter/file_adapter.cpp: LoadPolicy, SavePolicy, SavePolicyFile", "casbin/enforcer.cpp: LoadPolicy, SavePolicy, SetWatcher", "casbin/management_api.cpp"]}
{"id": "C91", "title": "Several threads asking one CachedEnforcer", "statement": "Any number of threads may call Enforce on one CachedEnforcer at the same time, in any interleaving: there is no data race, no deadlock (every thread gets its answers after a bounded number of steps), and every answer is the one the plain enforcer gives. InvalidateCache may be called at any time, and afterwards no answer found before it is served.", "quantifier": "all numbers of threads, all programs of requests, all interleavings of the steps between locking and unlocking", "why_tests_cant": "a race shows in a few of very many interleavings; a test sees the ones the scheduler happens to choose", "anchors": ["casbin/enforcer_cached.cpp: getCachedResult, setCachedResult, InvalidateCache, EnforceWithMatcher", "include/casbin/enforcer_cached.h: locker"]}
{"id": "C92", "title": "Comparing addresses", "statement": "Comparing two IP addresses answers whether they denote the same address, whichever notation they were written in: it is an equivalence, two IPv4 addresses are equal exactly if their four numbers agree, two IPv6 addresses exactly if their eight groups agree, and an IPv4 address equals its IPv4-mapped IPv6 form (::ffff:a.b.c.d).", "quantifier": "all texts and all pairs of addresses", "why_tests_cant": "2^32 and 2^128 addresses, each with several notations", "anchors": ["casbin/ip_parser/parser/IP.cpp: Equal", "casbin/ip_parser/parser/equal.cpp: equal", "casbin/ip_parser/parser/parseIP.cpp: parseIP"]}
{"id": "C93", "title": "Enforcers kept in step by a storage and a watcher", "statement": "Several enforcers that share one storage through adapters of the user's own, with auto-save on, and whose watchers make the others load the policy after each change, have the same policy and grouping rules as the storage and as each other after every change made through any of them; one that joins later has them once it has loaded.", "quantifier": "all numbers of enforcers, all histories of calls through any of them in any order that returned, all storages that do as they are told, all rules that can be written as lines and are not rearrangements of each other", "why_tests_cant": "the interleavings of calls through any number of enforcers are unbounded, and the storage and watcher are the user's own", "anchors": ["casbin/enforcer.cpp: SetWatcher, LoadPolicy, SavePolicy", "casbin/internal_api.cpp: addPolicy, addPolicies, removePolicy, removeFilteredPolicy, updatePolicy", "casbin/persist/adapter.cpp: LoadPolicyLine"]}
{"id": "C94", "title": "A role manager of the caller is told of every grouping rule", "statement": "An enforcer given a role manager of the caller keeps it informed: at any time, the links that manager has been told of through Clear, AddLink and DeleteLink are exactly those of the grouping rules the enforcer lists, each link is announced once, and a rule the manager refuses is not kept.", "quantifier": "every role manager (any state, any answers including exceptions), every history of management calls, every grouping policy and adapter", "why_tests_cant": "The manager is arbitrary code; a test fixes one manager and one history, and cannot range over all of them or over the points at which the manager throws.", "anchors": ["casbin/model/assertion.cpp: Assertion::BuildIncrementalRoleLinks, BuildRoleLinks", "casbin/enforcer.cpp: Enforcer::BuildRoleLinks, SetRoleManager, LoadPolicy", "casbin/internal_api.cpp: addPolicy, removePolicy, updatePolicy", "casbin/management_api.cpp: AddNamedGroupingPolicy, RemoveNamedGroupingPolicy"]}
{"id": "C95", "title": "When the watcher fails, the change is in force and the caller learns of it", "statement": "A call whose watcher throws leaves the enforcer as if the watcher had returned: the rules, the storage and the role links are those the call makes, the exception of the watcher reaches the caller, and going on after it is safe.", "quantifier": "every watcher that leaves the enforcer alone (any exceptions, at any notification), every call that tells the watcher, every state and history", "why_tests_cant": "The watcher is arbitrary code that talks to a network; a test fixes one watcher and one failure, and cannot range over every call and every point at which it fails.", "anchors": ["casbin/internal_api.cpp: addPolicy, addPolicies, removePolicy, removePolicies, updatePolicy, updatePolicies, removeFilteredPolicy", "casbin/management_api.cpp: AddNamedGroupingPolicy, RemoveNamedGroupingPolicy, RemoveFilteredNamedGroupingPolicy", "casbin/rbac_api.cpp: AddRolesForUser, DeleteUser, DeleteRole", "casbin/enforcer.cpp: Enforcer::SavePolicy, SetWatcher", "casbin/persist/watcher.h: Watcher::Update"]}
{"id": "C96", "title": "A watcher given with SetWatcher is connected", "statement": "After SetWatcher the enforcer tells the watcher of its changes, through the richest interface the watcher implements, and the watcher holds a callback that makes the enforcer load the policy, so that a change made elsewhere reaches it. This is true of every kind of enforcer.", "quantifier": "every number of enforcers sharing a storage, every history of calls and SetWatcher calls, every watcher class, every interleaving of threads on a synchronised enforcer", "why_tests_cant": "Which function is called and whether a callback is ever kept are facts about all histories; a test with one watcher sees one of them.", "anchors": ["casbin/enforcer.cpp: Enforcer::SetWatcher", "casbin/enforcer_synced.cpp: SyncedEnforcer::SetWatcher", "include/casbin/persist/watcher.h: Watcher::SetUpdateCallback", "include/casbin/persist/watcher_ex.h", "include/casbin/persist/watcher_update.h", "casbin/util/is_instance_of.cpp: IsInstanceOf", "casbin/internal_api.cpp"]}
{"id": "C97", "title": "Enforcers that share a storage answer alike", "statement": "Several enforcers with the same model share one storage and load the policy whenever one of them made a change. After any history of calls through any of them, each decides every request by the rules the storage has, so all of them give the same answer; an enforcer that joins later does, too, once it has loaded.", "quantifier": "every number of enforcers, every history of calls that returned, every request, every model whose matcher has a reading, every storage that does as it is told", "why_tests_cant": "Agreement needs the rules, the role links and the evaluator of every enforcer to be in order after every history; a test compares two enforcers after one.", "anchors": ["casbin/enforcer.cpp: Enforcer::LoadPolicy, Enforcer::BuildRoleLinks, Enforcer::m_enforce", "casbin/internal_api.cpp", "casbin/model/assertion.cpp: BuildRoleLinks, BuildIncrementalRoleLinks", "include/casbin/persist/watcher.h", "include/casbin/persist/batch_adapter.h"]}
{"id": "C98", "title": "Enforcers in different threads do not disturb each other", "statement": "Threads that each use an enforcer of their own, sharing no model, adapter, role manager or watcher, may ask them at the same time: there is no data race, and every thread gets the answers its enforcer gives alone.", "quantifier": "every number of threads and enforcers, every request, every interleaving of the steps of their enforcements", "why_tests_cant": "The enforcers share a static pool of function objects that no signature shows; only an argument over all interleavings tells what can be found in it, and a test on one machine hits the window of a few instructions by luck.", "anchors": ["include/casbin/model/exprtk_config.h: ExprtkFunctionFactory::GetExprtkFunction", "casbin/model/evaluator.cpp: ExprtkEvaluator::LoadFunctions, LoadGFunction, AddFunction", "casbin/enforcer.cpp: Enforcer::m_enforce"]}
{"id": "C99", "title": "Asking does not use up memory", "statement": "What an enforcer keeps in memory from one request to the next is bounded by a number that depends on its model only, however many requests it was asked; the cache of a CachedEnforcer is bounded, too.", "quantifier": "every enforcer, every list of requests, positional or by name, with every matcher and every answer", "why_tests_cant": "Growth shows after millions of requests, and whether there is a bound at all is a statement about all lists of requests.", "anchors": ["casbin/model/evaluator.cpp: ExprtkEvaluator::AddFunction, AddIdentifier, Clean", "include/casbin/model/evaluator.h: ExprtkEvaluator::Functions, identifiers_", "casbin/enforcer.cpp: Enforcer::m_enforce, Enforcer::EnforceExWithMatcher", "casbin/enforcer_cached.cpp: CachedEnforcer::setCachedResult"]}
{"id": "C100", "title": "What one rule can change", "statement": "Adding an allow rule never takes a permission away and adding a deny rule never gives one; removing an allow rule never gives a permission and removing a deny rule never takes one away; adding or removing a rule that does not match a request never changes the answer to it. This holds under each of the four effects, whatever else is stored and whatever the adapter and the watcher do.", "quantifier": "every enforcer, every policy, effect and matcher, every request and every rule added or removed", "why_tests_cant": "It compares two answers for every policy, every rule and every place the rule can have among the others; tests compare a few.", "anchors": ["casbin/enforcer.cpp: Enforcer::m_enforce", "casbin/effect/default_effector.cpp: DefaultEffector::MergeEffects", "casbin/management_api.cpp: Enforcer::AddPolicy, Enforcer::RemovePolicy", "casbin/internal_api.cpp: Enforcer::addPolicy, Enforcer::removePolicy"]}
{"id": "C101", "title": "Copies of a cached enforcer", "statement": "A copy of a CachedEnforcer gives the same answers as the original when it is made, by copying or by moving. What is done afterwards through one of them reaches the others: after the policy was changed and InvalidateCache was called through one, all of them answer by the new policy.", "quantifier": "every program that copies and moves cached enforcers and calls them, every request", "why_tests_cant": "It is about all histories of calls through all copies; a test sees the stale answers only if it asks before the change, through the right copy.", "anchors": ["casbin/enforcer_cached.cpp: CachedEnforcer::CachedEnforcer(const CachedEnforcer&), CachedEnforcer::CachedEnforcer(CachedEnforcer&&), CachedEnforcer::InvalidateCache, CachedEnforcer::EnforceWithMatcher", "include/casbin/enforcer_cached.h: CachedEnforcer"]}
{"id": "C102", "title": "An evaluator of the caller", "statement": "When Enforce is given an evaluator, or after SetEvaluator, that evaluator decides which rules match: it is given the functions of the model, then asked about the rules in policy order, each time with the values of the rule and the matcher, until the policy effect is settled; the decision and the explanation follow from its answers as they do with the default evaluator; what it throws reaches the caller; with the default evaluator this is ordinary enforcement. The evaluator is not told when an enforcement is over.", "quantifier": "every evaluator (any state, any answers, any exception, also different answers to the same call), every model, policy, matcher and request, with and without the hash index", "why_tests_cant": "It is about all evaluators; a test uses one or two, and cannot show that no other call is made.", "anchors": ["include/casbin/model/evaluator.h: IEvaluator", "casbin/enforcer.cpp: Enforcer::Enforce(std::shared_ptr<IEvaluator>), Enforcer::EnforceExWithMatcher, Enforcer::m_enforce, Enforcer::SetEvaluator", "casbin/selected_policies.cpp: SelectedPolicies::requestedPolicy"]}
{"id": "C103", "title": "Decisions and queries with a role manager of the caller", "statement": "After SetRoleManager and BuildRoleLinks with a role manager of the caller, g in a matcher is what HasLink of that manager answers: the decision and the explanation are those the policy effect gives to the rules that then match, and what HasLink throws reaches the caller of Enforce unless an earlier rule settles the matter. GetRolesForUser, GetUsersForRole and HasRoleForUser return what the manager answers. GetImplicitRolesForUser returns exactly the names that can be reached by GetRoles, each once and without the user, and GetImplicitPermissionsForUser the rules of these; GetImplicitUsersForPermission the subjects, no roles, to whom Enforce says yes. With the default manager all this is what the other properties say. GetImplicitRolesForUser returns for every manager, and a manager that was replaced is asked nothing more.", "quantifier": "every manager (any answers, any exception), every oracle for matchers, every model, policy, request, name and domain", "why_tests_cant": "It is about all role managers; a test uses one. That the traversal misses nothing and ends is about all, also cyclic, answers.", "anchors": ["include/casbin/rbac/role_manager.h: RoleManager", "casbin/enforcer.cpp: Enforcer::SetRoleManager, Enforcer::BuildRoleLinks, Enforcer::m_enforce", "include/casbin/model/exprtk_config.h: ExprtkGFunction", "casbin/rbac_api.cpp: Enforcer::GetRolesForUser, Enforcer::GetUsersForRole, Enforcer::HasRoleForUser, Enforcer::GetImplicitRolesForUser, Enforcer::GetImplicitPermissionsForUser, Enforcer::GetImplicitUsersForPermission"]}
{"id": "C104", "title": "Which models use the rule index", "statement": "A loaded model keeps its policy rules in the hash index exactly when deleting the comparisons r.f == p.f of the request fields f from its matcher, field after field and from left to right, leaves one ' && ' less than there are fields. So a conjunction of comparisons of fields is indexed, whatever their order, exactly if it has as many comparisons as the request has fields. Rules of role definitions are never indexed. Only matchers that compare every field are indexed.", "quantifier": "every configuration text, every request definition with ordinary field names, every matcher", "why_tests_cant": "It is about all matchers and field names; the choice decides whether rules are found by scanning or by equality with the request, and a wrong choice changes decisions silently.", "anchors": ["casbin/model/model.cpp: IsHashsetUsagePossible, Model::AddDef, Model::LoadModelFromConfig"]}
{"id": "C105", "title": "Working on the parts behind the enforcer", "statement": "GetModel() and GetRoleManager() return the enforcer's own model and role manager. (a) A call of the model's AddPolicy, AddPolicies, RemovePolicy, RemoveFilteredPolicy, UpdatePolicy, UpdatePolicies or ClearPolicy stores the rules, and gives the answer, that the enforcer's call of that name would. (b) It tells nobody: adapter, watcher, files, settings and role manager are as before; with automatic saving and notification off the enforcer's call on policy rules is the direct call, state for state. (c) After any sequence of direct calls a request to a standard RBAC enforcer is allowed exactly when a stored rule grants it to the subject or to a role reached through the links in force, which are those there were before changed by the calls on the role manager alone; GetRolesForUser lists exactly them. (d) BuildRoleLinks then brings the roles back in line with the stored grouping rules. (e) False: a grouping rule put into the model directly gives its role; RemovePolicies on the model works.", "quantifier": "all enforcers kept in order, all sequences of direct calls on model and role manager, all requests and users", "why_tests_cant": "Tests drive the enforcer's functions; a sequence of direct calls has no bound, and what it leaves out of step depends on their order.", "anchors": ["casbin/enforcer.cpp: Enforcer::GetModel, Enforcer::GetRoleManager", "casbin/model/model.cpp: Model::AddPolicy, Model::AddPolicies, Model::RemovePolicy, Model::RemovePolicies, Model::RemoveFilteredPolicy, Model::UpdatePolicy, Model::UpdatePolicies, Model::ClearPolicy", "casbin/rbac/default_role_manager.cpp: DefaultRoleManager::AddLink, DefaultRoleManager::DeleteLink, DefaultRoleManager::Clear", "casbin/internal_api.cpp"]}
{"id": "C106", "title": "A JSON document in a request takes part in that request's decision only", "statement": "A request may give a JSON document as the value of a field. The matcher then sees that document for the field: the decision is a function of the model, the policy, the role links and this request, and a request with a document that the matcher cannot use leaves the answers to later requests unchanged.", "quantifier": "all oracles, models, policies, matchers, positions of the documents, and histories of earlier and later requests", "why_tests_cant": "The value seen for a document depends on which requests came before, so it ranges over all histories; tests of JSON requests start from a fresh enforcer.", "anchors": ["casbin/model/evaluator.cpp: ExprtkEvaluator::PushObjectJson, ExprtkEvaluator::Eval", "casbin/enforcer.cpp: Enforcer::EnforceExWithMatcher, Enforcer::m_enforce", "casbin/selected_policies.cpp: SelectedPolicies"]}
{"id": "C107", "title": "A watcher that reloads its own enforcer does not undo changes", "statement": "If the watcher's Update() makes the same enforcer load the policy, a change through the API that answers true is still in force when the call returns: the enforcer has the rules it would have with a watcher that does nothing, and users have the roles that the grouping rules give them.", "quantifier": "every watcher and every call with nothing left to do after notifying (for what the watcher's function starts from); every storage that does as it is told and every finite history of calls (for the rules); every file-backed enforcer, every policy text and every call that makes one change (for the refutation); every adapter (for updates)", "why_tests_cant": "Unit tests use watchers that do nothing; whether a reload in the middle of a call undoes the change depends on the adapter, on the kind of call and on what was stored before.", "anchors": ["casbin/internal_api.cpp: addPolicy, addPolicies, removePolicy, removeFilteredPolicy, updatePolicy, updatePolicies", "casbin/enforcer.cpp: LoadPolicy, SetWatcher, SavePolicy", "casbin/management_api.cpp: AddNamedGroupingPolicy", "casbin/persist/file_adapter/file_adapter.cpp: AddPolicy, RemovePolicy"]}
{"id": "C108", "title": "A grouping rule with too few fields is refused and does no harm", "statement": "Offering a grouping rule with fewer fields than its role definition has (for instance AddRoleForUser in a model whose roles have domains) throws an exception, and that is all: the policy, the storage, the watcher, the roles of everybody and all decisions are as before, and later calls work as if the rule had not been offered.", "quantifier": "every enforcer whose role links have been built, every role definition, every rule shorter than it, every matcher and request (for the call itself); every state in which such a rule is stored and every call that takes grouping rules away (for what follows)", "why_tests_cant": "An exception is tested with one rule on a fresh enforcer; what it leaves behind shows in other calls, about other users, later.", "anchors": ["casbin/internal_api.cpp: addPolicy, addPolicies, removePolicy, updatePolicy", "casbin/management_api.cpp: AddNamedGroupingPolicy, RemoveNamedGroupingPolicy, RemoveFilteredNamedGroupingPolicy", "casbin/model/assertion.cpp: BuildRoleLinks, BuildIncrementalRoleLinks", "casbin/rbac_api.cpp: AddRoleForUser, DeleteUser, DeleteRole"]}
{"id": "C109", "title": "Names that differ in case are different names, and a name in the wrong case does no harm", "statement": "Fields whose names differ only in the case of their letters keep their own values, and a decision depends on all of them. A request by name that spells a field in other letters is answered or refused, and requests after it are answered as if it had not been made.", "quantifier": "every model, every enforcer and policy, every expression library, every matcher, every sequence of requests in order or by name", "why_tests_cant": "The expression library compares names without regard to case while the enforcer and its index compare them exactly; what follows depends on which spelling came first in the history of the evaluator.", "anchors": ["casbin/model/evaluator.cpp: AddIdentifier, PushObjectString, AddFunction, requestValues", "casbin/selected_policies.cpp: requestedPolicy", "casbin/enforcer.cpp: EnforceExWithMatcher, m_enforce", "include/casbin/exprtk/exprtk.hpp: ilesscompare, symbol_table"]}
{"id": "C110", "title": "Names carry no meaning of their own", "statement": "If all users, roles, domains, objects and actions of a policy are renamed, different names staying different, then every request written in the new names gets the decision the old one got.", "quantifier": "every one-to-one renaming, every policy and grouping rules, every request, every history that led to them", "why_tests_cant": "A test renames a few names; which spellings the library treats specially can only be settled for all names at once.", "anchors": ["casbin/enforcer.cpp: m_enforce, Enforce", "casbin/rbac/default_role_manager.cpp: AddLink, HasLink", "casbin/selected_policies.cpp: requestedPolicy", "casbin/model/evaluator.cpp: PushObjectString"]}
{"id": "C111", "title": "A matcher means what is written in it", "statement": "The names, the texts in quotes and the operators && and || of a matcher reach the expression library as they were written: a text in quotes is compared with exactly that text, and spaces around the operators and the kind of quotes do not matter.", "quantifier": "every matcher built of names, quoted texts, &&, ||, comparisons, brackets, commas and spaces; every expression library; every enforcer and request", "why_tests_cant": "The text is rewritten by search and replace before it is compiled; whether this is harmless depends on every text and layout a matcher can have.", "anchors": ["casbin/model/evaluator.cpp: Eval", "casbin/enforcer.cpp: EnforceWithMatcher, m_enforce", "include/casbin/exprtk/exprtk.hpp: generator::process, scan_token, scan_symbol, scan_string"]}
{"id": "C112", "title": "What is stored decides, and a restart changes no decision", "statement": "Two enforcers with the same model, the same rules and the same role assignments answer every request alike, however these came to be; so an enforcer made from the model file and the policy file that another one saved answers every request as the other one does.", "quantifier": "every model and matcher with a reading, every history of calls from files to the save, every request; made by the constructor or by InitWithFile on any enforcer", "why_tests_cant": "Whether the decisions after a restart are those before it depends on every sequence of changes before the save and on every request after it.", "anchors": ["casbin/enforcer.cpp: Enforcer, InitWithFile, SavePolicy, LoadPolicy, Enforce, m_enforce", "casbin/persist/file_adapter/file_adapter.cpp: SavePolicy, LoadPolicy", "casbin/persist/adapter.cpp: LoadPolicyLine", "casbin/model/model.cpp: LoadModel, BuildRoleLinks"]}
{"id": "C113", "title": "Management calls behave as on a table of rules", "statement": "Whatever was done before, adds (of one rule or of several together), removals, filtered removals, updates, questions and listings of rules and role assignments answer and leave behind what the same operations on a plain table of rules do; so two enforcers with the same rules give the same answers to every further sequence of such calls, have the same rules after it, and decide every request alike.", "quantifier": "every enforcer whose role links the library keeps, whatever its past and adapter, every finite sequence of calls with rules of the right length no two of which are the same values in another order, every request after it", "why_tests_cant": "The answers depend on the whole sequence of calls before them; a test fixes one sequence.", "anchors": ["casbin/management_api.cpp: AddNamedPolicy, AddNamedPolicies, RemoveNamedPolicy, RemoveFilteredNamedPolicy, UpdateNamedPolicy, HasNamedPolicy, GetNamedPolicy, GetFilteredNamedPolicy, AddNamedGroupingPolicy, AddNamedGroupingPolicies, RemoveNamedGroupingPolicy, RemoveFilteredNamedGroupingPolicy, HasNamedGroupingPolicy, GetNamedGroupingPolicy, GetFilteredNamedGroupingPolicy", "casbin/internal_api.cpp: addPolicy, addPolicies, removePolicy, removeFilteredPolicy, updatePolicy", "casbin/model/model.cpp: AddPolicy, AddPolicies, RemovePolicy, RemoveFilteredPolicy, UpdatePolicy, HasPolicy, GetPolicy, GetFilteredPolicy"]}
{"id": "C114", "title": "An enforcer whose role links were never built", "statement": "An enforcer made from a model file alone decides, until the first grouping rule is added or links are built, as if every name had only itself as a role, in every domain: the stored policy rules decide, whatever management calls of policy rules, requests, listings, saves and switches came before. A role that is given later by a grouping rule is then in force for every request.", "quantifier": "every model file the library accepts with rules of fixed length and a matcher without eval(), every finite history of such calls, every request of the right length", "why_tests_cant": "The answer depends on the whole history of calls, in particular on whether a request was made before the role was given; a test fixes one order.", "anchors": ["casbin/enforcer.cpp: Enforcer(model_path), m_enforce, EnforceExWithMatcher", "casbin/model/evaluator.cpp: LoadGFunction, AddFunction", "casbin/model/exprtk_config.h: the role function", "casbin/internal_api.cpp: addPolicy"]}
