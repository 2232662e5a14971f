# Formal model of casbin-cpp in Rocq (Coq 8.16.1)

## 1. Approach

The model is a set of small, total, computable Gallina functions, one per C++
function, each with a comment citing the file and lines in /repo it models.
`std::string` is `Coq.Strings.String.string` (arbitrary bytes), `std::vector` is
`list`, `unordered_map` is an association list whose order stands for one
arbitrary iteration order, pointers to shared objects (role managers) are
addresses into an explicit heap so that aliasing and stale pointers are
visible.  Every function that can throw or run into undefined behaviour returns
an explicit outcome `Ok v | Throw e | UB k`; state transformers return the
state *together with* the outcome, so the partial effects of a failing call are
visible.

The matcher language (exprtk) is not modelled as a whole: theorems quantify over
an arbitrary evaluator (a Section variable, hence a universally quantified
argument of the closed theorem).  A small concrete matcher language is modelled
on top of it as an instance, for examples and for the end-to-end theorems.

Files (all in rocq/theories):
 * `Base.v`                      outcomes, std::string primitives
 * `M_*.v`                       the model, no proofs
 * `S_*.v`                       specifications, written without the model's helpers
 * `P_*.v`                       lemmas and proofs
 * `E_Examples.v`                concrete models and enforcers
 * `E_UnitTests.v`               the assertions of /repo/tests computed by the model: a
                                 check of the model against the code, not a proof
 * `T_*.v`                       property theorems, with `Print Assumptions` and
                                 non-vacuity examples
 * `Z_Assumptions.v`             `Print Assumptions` of every theorem in MANIFEST.json

A property that the code violates is kept with its full statement, and the
negation is proved by a concrete witness (`..._refuted`); next to it the
strongest variant that does hold is proved (`..._partial` or with an explicit
extra hypothesis).

## 2. Plan per property

| id | what is modelled | how it is proved |
|----|------------------|------------------|
| C01-C04 | `m_enforce` loop + `MergeEffects`, called after each rule with the effects so far | induction over the rule list with an invariant on the effect/match arrays; compared with a declarative spec over the list of (match, effect) pairs |
| C05 | final `else` of `MergeEffects` | case analysis on the text |
| C06 | explain index of `MergeEffects`, `explains` of `m_enforce` | same induction, strengthened with the index |
| C07 | enabled flag, arity check order | direct; refuted for wrong arity |
| C08 | rule branch and empty-policy branch | from C01; refuted for the all-empty request |
| C09 | as C01 | spec is permutation invariant |
| C10 | enforcer state before/after | frame lemma for the enforce step |
| C11 | evaluator object: variables, cached expression, first-registration function table | refuted (three ways); partial theorem under explicit conditions on the history |
| C12 | BatchEnforce | induction over the batch |
| C13 | arity checks | direct |
| C14 | hash store, IsHashsetUsagePossible, SelectedPolicies | simulation between scan and lookup; refuted for custom matchers and the all-empty request |
| C15-C22 | Model policy functions, internal API, management API | list induction; histories by `fold_left` |
| C23 | ClearPolicy | direct; refuted for the role links |
| C24-C27 | DefaultRoleManager incl. pattern functions | HasRole recursion against an inductive path relation |
| C28 | BFS loop of GetImplicitRolesForUser | termination by a measure on undiscovered roles, invariant for exactness |
| C29 | as C24, C28 | refuted beyond the level bound; partial |
| C30, C31 | AddNamed/RemoveNamedGroupingPolicy, internal API, BuildRoleLinks | invariant over histories for a set of safe operations, refutations for the others |
| C32-C34 | RBAC API | composition of C20, C28 |
| C35 | one graph shared by all g assertions | refuted |
| C36 | everything above + concrete matcher semantics | composition |
| C37-C40 | adapters, text format, file contents, crash points of a write | round trip by induction; crash states as prefixes |
| C41, C42 | internal API with a logging adapter with arbitrary behaviour, watcher counter | step lemma + induction over histories |
| C43, C44 | FilteredFileAdapter, LoadPolicyLine | direct / induction |
| C45, C46, C52 | Config parser, Model loader | induction over lines |
| C47, C48 | CachedEnforcer | invariant "cache agrees with enforce" over request sequences |
| C49, C50 | lock actions and call graph of SyncedEnforcer, interleaving semantics of threads | invariant over all schedules (mutual exclusion), call-graph computation |
| C51 | Ticker::stop and timer_loop as a transition system | reachable deadlock (refuted), progress outside it |
| C53-C55 | KeyMatch*, KeyGet*, regexes as an AST with relational semantics and a derivative matcher | string induction |
| C56-C59 | ip_parser | arithmetic on bytes, grammar relation for the text |
| C60-C63 | util | string induction |
| C64 | all UB outcomes of all calls (`call` in S_History.v), construction | invariant "no UB" for well-formed calls (S_Safe.v), one lemma per call (P_Safe.v, P_SafeMore.v), induction over histories; counterexamples for each extra condition |
| C65 | RBAC permission API | from C15/C20 |
| C66, C67 | KeyGet2/3, KeyMatch4 on the same regular expressions | match relation on segments, first-match uniqueness |
| C68 | IPv6 part of ip_parser and IPMatch | bit arithmetic, grammar relation for the text |
| C69-C72 | the whole of enforcement for the example models, for any expression library that reads their matchers as documented (`reads`, S_Standard.v) | decision theorem for standard enforcers (P_Standard.v) + preservation over histories |
| C73 | the role calls of rbac_api.cpp and rbac_api_with_domains.cpp as a change of a set of assignments (`roles_become`, S_RoleApi.v) | from C30 (links mirror the policy) and C74 |
| C74 | tables of all policy calls with the type and rule they are about (S_Calls.v) | one lemma per edit of the model, lifted through the API |
| C75 | regular expressions: parser of the pattern text to an AST, derivative matcher (M_Regex.v); grammar with meanings as a relation (S_Regex.v) | the parser is sound and complete for the grammar; derivatives against the meanings |
| C76 | which built-in function answers to which name in a matcher (M_Functions.v) on top of M_BuiltIn.v, M_Ip.v, M_Regex.v | a library with the built-in functions is again a library in the sense of C69-C72; the decision theorem of P_Standard.v plus C53, C55, C56, C59, C75 |
| C77 | as C69-C72 | the decision theorem of P_Standard.v, extended to the case without rules |
| C78 | constructors and InitWith... calls (M_Init.v) on top of M_Load.v, M_Persist.v and M_Enforcer.v; the example files as texts (S_Files.v) | one lemma about a load that succeeds (P_Files.v): it delivers a state of C30 and of C69-C72 whose rules and links are those of the file; then the decision theorem of P_Standard.v; the example files are read by computation |
| C79 | Config::Set, Get, GetBool, GetInt, GetStrings | induction over histories of settings; digits by induction; counterexamples for odd keys |
| C80 | the four switches, all calls | induction over histories with the frame of each call; counterexamples for SetModel and link building |
| C81 | role manager with a matching function | invariant relating the roles map to links and known names, through histories that also ask questions |
| C82 | enforcer with AddNamedMatchingFunc | the invariant of C81 carried through every call of the enforcer, then the decision theorem for readings of matchers |
| C83 | m_enforce with an arbitrary stateful effector | the rule loop related to an inductive account of the questions asked; the default effector as an instance |
| C84 | SetRoleManager, BuildRoleLinks, SetEvaluator | rebuilding restores the invariants of the decision theorems for the new manager; counterexample without SetEvaluator |
| C85 | the static logger, LogPrint in m_enforce, EnableLog, SetLogger, PrintRoles | with the log off equal to the model without it, over all histories; with the log on unbounded recursion for every stack size |
| C86 | printing in ip_parser | decimal digits read back; bits of masked bytes; enumeration of the prefixes |
| C87 | requests given as maps | the evaluator holds the values of the last request; induction on the history of requests |
| C88 | M_Copies.v: objects behind shared pointers, handles, calls through a handle write back | invariant over all histories: every handle leads to the same model and role manager and sees a standard enforcer in step with it (P_Copies.v); which parts a call replaces, and that all handles see an adapter or watcher or none (P_Presence.v) |
| C89 | calls forwarded to a user's adapter | case analysis of the common form of the calls: edit, links, adapter, watcher; counterexamples for what is in force afterwards |
| C90 | a fleet of enforcers with common files | frame: no call but SavePolicy changes a file; C37 for the file; simulation of one enforcer's history by its own calls; counterexample for lost updates |
| C91 | threads on a CachedEnforcer, enforcer_cached.cpp cut at the mutex operations and memory accesses | invariants over schedules: mutex, faithful cache, warm cache; a measure for termination; race = two next steps that touch the same memory, one writing; schedules for the refutations |
| C92 | IP::Equal and equal of IP.cpp, equal.cpp, on the results of parseIP | case analysis on the byte lengths; concrete pairs for the refutations |
| C93 | a storage shared by user adapters (a log of calls), enforcers whose watchers call LoadPolicy of the others | invariant over histories: the log replayed by an obedient storage has the rules of every enforcer (C41), loading gives each the storage's rules (C38) |
| C94 | M_OwnRoles: the grouping calls over an enforcer, the state of an arbitrary manager and the list of calls it heard | invariant over histories that return; simulation with the default manager; counterexamples |
| C95 | M_OwnWatcher: the calls that tell the watcher, with Update an arbitrary action on the enforcer | the calls compared step by step with those of the other properties; general counterexamples for the calls that go on after telling |
| C96 | M_Wiring: SetUpdateCallback chosen by the static type, both SetWatcher functions; M_OwnWatcher: the function of the watcher each call chooses | induction over histories of several enforcers; equality of runs for watchers that agree on Update; invariant of the synchronised calls |
| C97 | M_Enforcer and M_Evaluator as for C93 and C36/C71; the storage is a parameter | invariant over histories of several enforcers: in step with the storage (C93), links and evaluator in order (C35, C64); then the decision theorem for standard models |
| C98 | M_Pool: GetExprtkFunction cut into its accesses to the static pool, threads that enforce, schedules | invariants over schedules (every entry of the pool is of the type of its key; empty between the calls when they take turns), explicit schedules for the refutations |
| C99 | M_Memory: the vector Functions added to the evaluator's variables and registrations; M_Cached for the cache | invariants over lists of requests (names kept once and among the fields), counting |
| C100 | AddPolicy and RemovePolicy of M_Enforcer, enforcement as in C01–C04 | one more result in a list of results: induction over the place where it is inserted, for each of the four effects |
| C101 | M_CachedCopies.v: the objects and handles of M_Copies.v, each handle with its entries and switch; copy and move | every call of a cached enforcer is a chain of calls of the plain one, so the invariant of C88 carries over; invariant that an entry stays |
| C102 | M_OwnEvaluator.v: m_enforce and the forms of Enforce with an evaluator of any state type, whose calls return a result or throw | refinement: with ExprtkEvaluator it equals m_enforce of M_Enforcer.v; induction over the rules with the state of the evaluator, and the lemmas of C01-C04 on MergeEffects |
| C103 | M_OwnQueries.v: HasLink, GetRoles and GetUsers of any managers, one per address; m_enforce with the evaluator of M_OwnEvaluator.v; the queries | decisions: an oracle that answers g from the managers makes own enforcement an instance of the proved one; invariant of the work list; counterexamples |
| C104 | M_Load.v: IsHashsetUsagePossible, AddDef, LoadModelFromConfig | the deletion of matches equals an inductive relation (S_Select.v); invariant over the sections read; induction over the conjunction |
| C105 | Calls on the model and role manager behind the enforcer | M_Direct.v adds the direct calls; the role manager's links are shown to follow the calls on it alone (P_Direct.v, generalising the link invariant of P_Sync.v to links other than those of the stored rules), the rules to follow after_edit of P_Group.v. |
| C106 | requests with DJson values (M_Enforcer.v push_r); `filled`, `carried`, `requires`, `ignores` in S_Json.v | C106_previous by induction over the history of requests with the invariant that the evaluator holds the last filled request; the first-request theorems follow the failed compilation through Eval's remembered text. |
| C107 | M_OwnWatcher with the watcher's function set to LoadPolicy; S_Reload has the watcher and histories of calls that returned. | Each call is the plain call followed by the watcher's function; loading from a reliable storage gives the same rules (C93); a source that is not told gives the old ones. P_Reload, T_Reload. |
| C108 | The grouping calls of M_Enforcer and the link building of M_Model; S_Short says what a definition takes, when a too short rule is stored and which answers are compared. | A decision depends on the model only through what P_Short calls its view, which a short rule does not change; link building cannot succeed over a list with a short rule, and no removal both succeeds and takes it away. P_Short, T_Short. |
| C109 | M_Case: the evaluator of M_OwnEvaluator with the name comparison of exprtk (first spelling kept, case ignored). S_Case says when names differ in case only. | A simulation between two evaluators call by call (P_Case), used once for the exact comparison and once for requests in other letters; an invariant of the symbol table for the index. P_Case, T_Case. |
| C110 | S_Rename: the rules of one enforcer are those of another with every value renamed. | Chains of links commute with a one-to-one renaming (P_Rename); with the decision theorems C36, C69, C70 and C71 for both enforcers. T_Rename. |
| C111 | M_Rewrite: the three replacements of Eval and the lexer of exprtk. S_Rewrite: a matcher as a list of pieces, how it is written and what is meant. | The replacements and the lexer, piece by piece, by induction over the list; with the decision theorem for equal tokens. P_Rewrite, T_Rewrite. |
| C112 | S_Restart: the same policy, requests with an answer, answering alike; the models of saving, loading and construction as before. | The decision of a standard enforcer is a function of the rules, links and depth; the saved file says the stored rules, and loading it gives them back; histories by induction. T_Restart. |
| C113 | S_Table: a table of rules, the operations on it as a relation without reference to the enforcer, and the calls that perform them. | Each call simulates its operation on an enforcer in order and keeps it in order; sequences by induction; the table relation is deterministic, so equal tables give equal answers; decisions by C112. P_Table, T_Table. |
| C114 | S_Unlinked: a name has itself as a role; the calls that add no grouping rule and build no links. NewEnforcerModelOnly and the K-calls as before. | These calls keep the section g and the order of the evaluator (frames of P_Sync), so each role function has no manager, as in the loaded model (C45_contents), and compares names; the decision by P_Standard.any_decision. Late roles: the evaluator refuses to register a name twice, so a request with every role function registered is that of the enforcer with the managers taken out of section g; this is kept by every call in order (T_Late), and a computed counterexample. T_Unlinked, T_Late. |

The table is the plan the proofs were written to; MANIFEST.json says for each
property which theorems came out of it and what is missing.

## 3. Trusted base

**Kernel and axioms.**  Everything is checked by Coq 8.16.1's kernel; no check is
switched off, there is no `Admitted`, no axiom, no functor and no module type.
`Z_Assumptions.v` prints the assumptions of every theorem in MANIFEST.json: all are
"Closed under the global context", so not even a standard library axiom is used.
Only the standard library is imported.  (The seven `Coq.ssr.ssrunder.Under_rel.*`
names that a tool may report are parameters of a module type of the standard
library's ssreflect that is loaded with `lia`; no theorem depends on them.)

**Faithfulness of the model** is trusted: the model was written by reading /repo, it
was neither extracted from it nor run against it.  Every definition cites the lines
it models.

**Modelled** (all functions unless listed below):

| code | model |
|------|-------|
| casbin/effect/default_effector.cpp | M_Effector.v |
| casbin/enforcer.cpp, selected_policies.cpp, internal_api.cpp, management_api.cpp, rbac_api.cpp, rbac_api_with_domains.cpp | M_Enforcer.v, M_Init.v (constructors, InitWith..., LoadModel), M_OwnEffector.v (m_enforce with any effector), M_OwnEvaluator.v (m_enforce with any evaluator), M_Copies.v (copying enforcers), M_OwnRoles.v (grouping calls with any role manager), M_OwnQueries.v (decisions and queries with any role manager), M_OwnWatcher.v (calls with any watcher), M_Wiring.v (SetWatcher), M_Log.v (the log), M_Direct.v (work on the parts behind the enforcer) |
| casbin/enforcer_cached.cpp | M_Cached.v, M_CachedThreads.v (threads), M_CachedCopies.v (copying) |
| casbin/enforcer_synced.cpp | M_Synced.v (locking), M_Ticker.v (automatic loading) |
| casbin/util/ticker.cpp | M_Ticker.v |
| casbin/model/model.cpp, assertion.cpp, policy_collection.cpp | M_Model.v, M_Load.v |
| casbin/model/evaluator.cpp, include/casbin/model/exprtk_config.h | M_Evaluator.v, M_Functions.v (built-in functions), M_Pool.v (the pool of function objects, threads), M_Memory.v (what is kept) |
| casbin/config/config.cpp | M_Config.v |
| casbin/persist (adapter, string, file, batch file and filtered file adapter) | M_Persist.v |
| casbin/rbac/default_role_manager.cpp | M_RoleManager.v |
| casbin/ip_parser, IPMatch | M_Ip.v, M_IpText.v (printing) |
| casbin/util: the other files | M_Util.v, M_Eval.v, M_BuiltIn.v, M_Regex.v |

**Not modelled:** the output of the log and of PrintSymbol (PrintModel and PrintPolicy have
empty bodies), function.cpp (FunctionMap, which the enforcer does not use), Config::GetFloat, the bodies
of the default watchers (which do nothing), the Python binding, and user written filtered adapters.  `Enforcer::LoadFilteredPolicy` is modelled
as written, though no program that calls it can be linked (a template nothing instantiates,
forwarding to a function that is neither virtual nor defined).  A user's own ordinary adapter is modelled
with arbitrary behaviour, and so are a user's own effector (SetEffector) and evaluator
(SetEvaluator, Enforce with an evaluator), except that they cannot call the enforcer.  What a user's own role manager is told is modelled for any such
manager (M_OwnRoles.v), and so is what follows from its answers (M_OwnQueries.v: it answers a question the same way while one call of the enforcer runs), and a user's own watcher with Update an arbitrary action on the
enforcer (M_OwnWatcher.v).

**Abstractions**

 * *exprtk* is external: its compiler and evaluator are two functions of a record
   `oracle` that every theorem about enforcement quantifies over.  Where a theorem needs
   that the result depends only on the visible variables and functions, it says so
   (`oracle_ext`).  `M_Matcher.v` is a small concrete matcher language used as a witness.
   Its symbol table compares names without regard to case; M_Evaluator.v compares them
   exactly, and C109 (M_Case.v) relates the two.
   The replacements Eval makes in a matcher's text and the library's lexer are modelled in
   M_Rewrite.v (C111); numbers, strings with escapes and `$` functions end the modelled part
   of a text.
 * *std::regex*: the two fixed expressions of util/eval.cpp are written out as matchers;
   for the key matching functions the regular expression texts are exact, and of the
   regular expression language the subset described at the head of M_BuiltIn.v is
   modelled.  regexMatch itself reads the larger grammar of S_Regex.v.  Any other text is handed to a parameter `other_match` the theorems quantify
   over.
 * *unordered_map / unordered_set* are lists.  New keys come last; the theorems quantify
   over the order of what was there before.  A rehash that changes the order between two
   calls is not modelled.  A theorem in which the order matters says so.
 * *Memory*: allocation always succeeds, int does not overflow in the functions outside
   ip_parser (lengths and positions are `nat`).  Reads out of bounds, null dereferences,
   invalid iterators, uninitialised reads, unbounded recursion and locking a held mutex
   are explicit `UB` outcomes.
 * *Files* are a map from paths to contents; the crash theorems consider every prefix of
   the writes.  Reading does not fail half way.
 * *Role functions in matchers*: HasLink creates roles for unknown names when a matching
   function is set.  When a matcher calls it, that effect on the role manager is dropped;
   C81_questions_leave_no_trace shows when it changes no later answer.
 * *Threads* interleave at the granularity described in M_Synced.v and M_Ticker.v;
   memory is sequentially consistent.
 * *Exceptions* are identified by class, their texts are not modelled.

## 4. Testing the theorems

`seeded/LOG.jsonl` lists edits of the model of the kind a bug in the program would make,
each rebuilt in a scratch copy, and the theorems that fail to prove for the edited model.
