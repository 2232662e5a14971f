{
 "claims": [
  {
   "property": "C01",
   "status": "proved",
   "theorems": [
    "C01_allow_override"
   ],
   "note": "Any expression library, any number of rules; all candidate rules evaluate."
  },
  {
   "property": "C02",
   "status": "proved",
   "theorems": [
    "C02_deny_override"
   ],
   "note": ""
  },
  {
   "property": "C03",
   "status": "proved",
   "theorems": [
    "C03_allow_and_deny"
   ],
   "note": ""
  },
  {
   "property": "C04",
   "status": "proved",
   "theorems": [
    "C04_priority"
   ],
   "note": ""
  },
  {
   "property": "C05",
   "status": "proved",
   "theorems": [
    "C05_unknown_effect"
   ],
   "note": ""
  },
  {
   "property": "C06",
   "status": "proved",
   "theorems": [
    "C06_explanation_sound"
   ],
   "note": ""
  },
  {
   "property": "C07",
   "status": "partial",
   "theorems": [
    "C07_disabled_allows_partial",
    "C07_disabled_allows_refuted"
   ],
   "note": "Holds for requests of the declared length; false for others (refutation)."
  },
  {
   "property": "C08",
   "status": "partial",
   "theorems": [
    "C08_no_match_denied_partial",
    "C08_empty_policy_partial",
    "C08_default_deny_refuted",
    "C08_indexed_default_deny_refuted"
   ],
   "note": "Holds when there are candidate rules; with none the matcher is evaluated with empty policy fields, so an all-empty request is allowed (refutation)."
  },
  {
   "property": "C09",
   "status": "proved",
   "theorems": [
    "C09_order_irrelevant",
    "C09_priority_order_matters"
   ],
   "note": ""
  },
  {
   "property": "C10",
   "status": "proved",
   "theorems": [
    "C10_enforcement_is_a_read",
    "C10_map_enforcement_is_a_read",
    "C10_pattern_query_refuted"
   ],
   "note": "For role managers without matching function; with one, queries add links (refutation at the role manager)."
  },
  {
   "property": "C11",
   "status": "partial",
   "theorems": [
    "C11_earlier_requests_irrelevant",
    "C11_fresh_evaluator",
    "C11_map_history_refuted",
    "C11_failed_compile_sticks_refuted",
    "C11_json_history_refuted",
    "C11_role_function_history_refuted"
   ],
   "note": "Proved for positional string requests with unchanged policy; refuted for map and JSON requests and for requests made before the first role link exists."
  },
  {
   "property": "C12",
   "status": "proved",
   "theorems": [
    "C12_batch_pointwise"
   ],
   "note": ""
  },
  {
   "property": "C13",
   "status": "proved",
   "theorems": [
    "C13_request_of_wrong_length_refused",
    "C13_rule_of_wrong_length_raises"
   ],
   "note": ""
  },
  {
   "property": "C14",
   "status": "partial",
   "theorems": [
    "C14_index_agrees_partial",
    "C14_custom_matcher_refuted",
    "C14_empty_request_refuted",
    "C14_selection_refuted",
    "C14_effect_column_refuted"
   ],
   "note": "Agreement for a matcher that is the field by field comparison, rules of the request's length and requests that are not all empty; refuted otherwise, also because the loader selects the index for other matchers and for policies with an effect column."
  },
  {
   "property": "C15",
   "status": "partial",
   "theorems": [
    "C15_has_policy_partial",
    "C15_add_policy_partial",
    "C15_remove_policy_partial",
    "C15_add_grouping_partial",
    "C15_remove_grouping_partial",
    "C15_permuted_rule_refuted"
   ],
   "note": "Holds for every rule of which no other permutation is stored, for p and g sections, with the full frame; false otherwise because rules are compared up to field order."
  },
  {
   "property": "C16",
   "status": "partial",
   "theorems": [
    "C16_no_duplicates_partial",
    "C16_set_semantics_refuted",
    "C16_loaded_duplicates_refuted"
   ],
   "note": "Invariant of every history whose batches are duplicate free and which loads nothing; AddPolicies with a repeated rule and a policy text with a repeated line store duplicates."
  },
  {
   "property": "C17",
   "status": "partial",
   "theorems": [
    "C17_add_policies_partial",
    "C17_permuted_rule_refuted"
   ],
   "note": "Holds when no permutation of a given rule is stored."
  },
  {
   "property": "C18",
   "status": "partial",
   "theorems": [
    "C18_remove_policies_never_removes",
    "C18_remove_policies_refuted",
    "C18_model_missing",
    "C18_model_refuted"
   ],
   "note": "The claim is false: RemovePolicies calls AddPolicies, it never removes a rule. Proved in that form for all states. Model::RemovePolicies itself, which nobody calls, has undefined behaviour whenever all rules are there."
  },
  {
   "property": "C19",
   "status": "partial",
   "theorems": [
    "C19_update_policy_partial",
    "C19_update_policies_partial",
    "C19_update_grouping_partial",
    "C19_failed_update_refuted",
    "C19_failed_update_loses_old",
    "C19_failed_batch_refuted"
   ],
   "note": "Successful updates replace exactly; a failed update loses the old rule."
  },
  {
   "property": "C20",
   "status": "proved",
   "theorems": [
    "C20_get_filtered",
    "C20_get_filtered_grouping",
    "C20_remove_filtered",
    "C20_remove_filtered_grouping",
    "C20_out_of_range_refuted"
   ],
   "note": "Whenever the filter lies within the rules; beyond that reading is undefined behaviour, shown by a witness."
  },
  {
   "property": "C21",
   "status": "proved",
   "theorems": [
    "C21_named_listings",
    "C21_named_roles",
    "C21_all_listings"
   ],
   "note": ""
  },
  {
   "property": "C22",
   "status": "proved",
   "theorems": [
    "C22_types_isolated",
    "C22_types_isolated_in_histories"
   ],
   "note": "For every API call and history."
  },
  {
   "property": "C23",
   "status": "partial",
   "theorems": [
    "C23_clear_policy_partial",
    "C23_roles_remain_refuted"
   ],
   "note": "All rules are forgotten, the role links are not."
  },
  {
   "property": "C62",
   "status": "partial",
   "theorems": [
    "C62_comparison_ignores_order",
    "C62_comparison_refuted",
    "C62_equal_rules_compare_equal_partial"
   ],
   "note": "The claim is false; comparison is exactly permutation."
  },
  {
   "property": "C65",
   "status": "partial",
   "theorems": [
    "C65_add_permission_partial",
    "C65_delete_permission_for_user_partial",
    "C65_delete_permission",
    "C65_permuted_permission_refuted"
   ],
   "note": "Holds unless a permutation of the permission rule is stored."
  },
  {
   "property": "C24",
   "status": "proved",
   "theorems": [
    "C24_has_link_is_bounded_reachability",
    "C24_names_without_colons",
    "C24_names_without_domains",
    "C24_two_domains_rejected",
    "C24_matching_sound_partial",
    "C24_matching_order_refuted"
   ],
   "note": "After every history of calls on a role manager. With a matching function only soundness holds; the converse is refuted."
  },
  {
   "property": "C25",
   "status": "proved",
   "theorems": [
    "C25_add_link",
    "C25_delete_link",
    "C25_delete_outcome",
    "C25_clear",
    "C25_delete_with_matching_refuted"
   ],
   "note": "Without a matching function. With one that is not reflexive deletion can fail (refuted)."
  },
  {
   "property": "C26",
   "status": "partial",
   "theorems": [
    "C26_has_link",
    "C26_get_roles",
    "C26_role_calls_isolated",
    "C26_colons_refuted",
    "C26_two_domains_refuted"
   ],
   "note": "Holds unless names or domains collide through the :: separator, which is refuted."
  },
  {
   "property": "C27",
   "status": "proved",
   "theorems": [
    "C27_converse",
    "C27_unknown_name_refuted",
    "C27_colons_refuted"
   ],
   "note": "GetUsers throws for a role nobody ever named where GetRoles answers the empty list."
  },
  {
   "property": "C28",
   "status": "proved",
   "theorems": [
    "C28_implicit_roles_are_the_closure",
    "C28_terminates_on_every_graph"
   ],
   "note": "Every managed enforcer and every history of a role manager, cyclic graphs included."
  },
  {
   "property": "C29",
   "status": "partial",
   "theorems": [
    "C29_enforced_roles_are_listed_partial",
    "C29_long_chain_refuted"
   ],
   "note": "g(u,x) implies listed; equivalent when the user has at most ten implicit roles; refuted for longer chains."
  },
  {
   "property": "C30",
   "status": "partial",
   "theorems": [
    "C30_links_mirror_policy_partial",
    "C30_get_roles_partial",
    "C30_get_users_partial",
    "C30_histories",
    "C30_add_permuted_rule_refuted",
    "C30_update_permuted_rule_refuted",
    "C30_failed_update_refuted",
    "C30_clear_policy_refuted",
    "C30_failed_load_refuted"
   ],
   "note": "Holds over every history of safe calls (see S_Sync.v); each excluded kind of call is refuted."
  },
  {
   "property": "C31",
   "status": "partial",
   "theorems": [
    "C31_revoked_role_is_gone_partial",
    "C31_role_stays_refuted",
    "C31_access_stays_refuted",
    "C31_duplicate_rule_refuted"
   ],
   "note": "Holds with automatic building on and the rule stored once; refuted with automatic building off and for a rule stored twice."
  },
  {
   "property": "C32",
   "status": "partial",
   "theorems": [
    "C32_delete_user_partial",
    "C32_delete_role_partial",
    "C32_deleted_user_has_no_roles_partial",
    "C32_empty_name_refuted",
    "C32_no_role_definition_refuted",
    "C32_other_type_refuted"
   ],
   "note": "Holds for non-empty names in models that define g."
  },
  {
   "property": "C33",
   "status": "partial",
   "theorems": [
    "C33_implicit_permissions_partial",
    "C33_empty_role_refuted"
   ],
   "note": "Holds when no reachable name is empty."
  },
  {
   "property": "C35",
   "status": "partial",
   "theorems": [
    "C35_separate_definitions_refuted",
    "C35_definitions_share_links",
    "C35_single_definition_partial"
   ],
   "note": "The claim is false; all grouping types share one set of links, proved in that form."
  },
  {
   "property": "C34",
   "status": "partial",
   "theorems": [
    "C34_implicit_users_partial",
    "C34_short_permission_refuted",
    "C34_domains_refuted"
   ],
   "note": "Exact for permissions of two fields and request definitions of three; undefined behaviour for shorter permissions, empty answer with domains."
  },
  {
   "property": "C36",
   "status": "proved",
   "theorems": [
    "C36_rbac_decision",
    "C36_rbac_histories",
    "C36_unbounded_chain_refuted"
   ],
   "note": "Over every history of safe calls. The bound is level_of e, which is 10 for enforcers built by the library."
  },
  {
   "property": "C60",
   "status": "partial",
   "theorems": [
    "C60_split",
    "C60_join_split",
    "C60_split_join",
    "C60_split_join_char",
    "C60_split_join_refuted",
    "C60_join_nothing_refuted",
    "C60_trim",
    "C60_trim_determined",
    "C60_trim_idempotent",
    "C60_remove_comments",
    "C60_set_subtract",
    "C60_occurrences",
    "C60_occurrences_unique",
    "C60_remove_duplicates",
    "C60_array_to_string",
    "C60_ends_with_partial",
    "C60_ends_with_refuted"
   ],
   "note": "Split, Trim, RemoveComments, SetSubtract, FindAllOccurences proved in full; Split after Join only for parts in which no separator begins (always true for a one-character separator); the naive version for longer separators, Join of no parts and EndsWith with a longer suffix are refuted"
  },
  {
   "property": "C61",
   "status": "partial",
   "theorems": [
    "C61_replace",
    "C61_word_characters",
    "C61_replace_determined",
    "C61_keys",
    "C61_rule_text_partial",
    "C61_unknown_field",
    "C61_parenthesised_refuted",
    "C61_escapes_refuted"
   ],
   "note": "every eval(p.f) is replaced by the field of the rule and the rest is unchanged, but the value is not parenthesised, which is refuted with a decision that ignores the object"
  },
  {
   "property": "C63",
   "status": "partial",
   "theorems": [
    "C63_escape_partial",
    "C63_run_characters",
    "C63_variable_partial",
    "C63_escape_refuted"
   ],
   "note": "exact position-wise behaviour; the English claim is refuted: only the first dot of a run is replaced and numbers and literals are changed too"
  },
  {
   "property": "C37",
   "status": "proved",
   "theorems": [
    "C37_save_load",
    "C37_save_load_same",
    "C37_string_partial",
    "C37_string_empty_refuted",
    "C37_separator_refuted",
    "C37_empty_rule_refuted"
   ],
   "note": "File adapter: for every policy of plain values and every enforcer with the same types. Vector stores keep the order, hash stores the set. The string adapter only for policies with a rule. Values with separators, outside the claim, are shown to come back changed."
  },
  {
   "property": "C38",
   "status": "proved",
   "theorems": [
    "C38_load_replaces",
    "C38_load_is_independent",
    "C38_load_twice",
    "C38_unknown_type"
   ],
   "note": "For every adapter that offers a list of rules of declared types; a text that mentions an undeclared type is undefined behaviour (C38_unknown_type)."
  },
  {
   "property": "C39",
   "status": "partial",
   "theorems": [
    "C39_failed_load_refuted",
    "C39_empty_text_refuted",
    "C39_missing_file_refuted",
    "C39_short_rule_refuted",
    "C39_links_partial"
   ],
   "note": "The claim is false: the policy is cleared before the adapter is asked. Only the role links survive a load that fails in the adapter."
  },
  {
   "property": "C40",
   "status": "partial",
   "theorems": [
    "C40_crash_refuted",
    "C40_wrong_rule_refuted",
    "C40_prefix_partial"
   ],
   "note": "The claim is false: the file is truncated first. What holds: the file has the old text, or a prefix of the new rules plus at most one damaged line. Crash states are prefixes of the written text."
  },
  {
   "property": "C43",
   "status": "partial",
   "theorems": [
    "C43_filter_refuted",
    "C43_witness_refuted",
    "C43_no_filter_refuted",
    "C43_save_refused",
    "C43_after_load_refuted",
    "C43_save_after_load_refuted",
    "C43_full_load"
   ],
   "note": "The claim is false: a line that fits the filter is undefined behaviour, a null filter loads everything twice. Refusal of SavePolicy after a filtered load is proved. The adapter's own function is what can be called: Enforcer::LoadFilteredPolicy cannot be linked as the code stands (M_Enforcer.e_LoadFilteredPolicy says why)."
  },
  {
   "property": "C44",
   "status": "proved",
   "theorems": [
    "C44_file",
    "C44_string",
    "C44_string_refuted"
   ],
   "note": "File adapter: also for indented comments and blank-only lines; string adapter: for empty lines and # in the first column (the refuted theorem shows an indented comment is undefined behaviour there)."
  },
  {
   "property": "C41",
   "status": "partial",
   "theorems": [
    "C41_forwards_once",
    "C41_storage_follows_partial",
    "C41_off",
    "C41_update_refuted",
    "C41_update_silent_refuted",
    "C41_remove_many_refuted",
    "C41_short_rule_refuted",
    "C41_batch_refuted",
    "C41_string_adapter_refuted",
    "C41_set_model_refuted"
   ],
   "note": "Single functions other than updates forward their arguments exactly once when they answer true; a storage that replays what it heard over a history of such calls holds the policy of the enforcer; with auto-save off nothing is forwarded. False for updates (never forwarded), batch removals, too short grouping rules, batches with a non-batch adapter, the string adapter."
  },
  {
   "property": "C42",
   "status": "partial",
   "theorems": [
    "C42_once",
    "C42_at_most_once",
    "C42_history",
    "C42_true_is_change",
    "C42_failed_update_refuted",
    "C42_short_rule_refuted",
    "C42_save_refuted",
    "C42_empty_batch_refuted",
    "C42_set_model_refuted"
   ],
   "note": "Per function and over histories one notification for each answer of true and none for false, none with notification off. False for failed updates and for calls that throw after the change, for SavePolicy with notification off, and for empty batches."
  },
  {
   "property": "C45",
   "status": "partial",
   "theorems": [
    "C45_sound",
    "C45_complete_partial",
    "C45_missing",
    "C45_contents",
    "C45_stays",
    "C45_missing_matcher_refuted",
    "C45_field_name_refuted"
   ],
   "note": "Success implies that the four definitions are present, for all configurations; presence implies success when the request field names contain no regular expression characters (false otherwise: std::regex may refuse the name). The loaded model holds exactly the numbered definitions as written, and over every history without SetModel none of them disappears. Without a matcher the exception is std::out_of_range instead of MissingRequiredSections."
  },
  {
   "property": "C46",
   "status": "partial",
   "theorems": [
    "C46_accepts",
    "C46_reads",
    "C46_comments",
    "C46_set",
    "C46_blank_line_refuted"
   ],
   "note": "Proved for all texts. False for lines of blanks only (or a carriage return): the text is refused."
  },
  {
   "property": "C52",
   "status": "partial",
   "theorems": [
    "C52_released_partial",
    "C52_released_refuted"
   ],
   "note": "Holds for every history in which all files read are well formed; after one malformed file every later Parse or Set is stuck, proved for every such history."
  },
  {
   "property": "C53",
   "status": "proved",
   "theorems": [
    "C53_no_star",
    "C53_star"
   ],
   "note": "For all strings."
  },
  {
   "property": "C54",
   "status": "proved",
   "theorems": [
    "C54_get",
    "C54_nothing"
   ],
   "note": "For all strings."
  },
  {
   "property": "C55",
   "status": "partial",
   "theorems": [
    "C55_keymatch2_partial",
    "C55_keymatch3_partial",
    "C55_star_alone",
    "C55_text_refuted",
    "C55_rest_refuted",
    "C55_anchored"
   ],
   "note": "For every pattern whose fixed texts have none of the characters ^$\\.*+?()[]| and every key the answer is whether the key fits, with nothing assumed of std::regex outside the modelled expressions. False for such texts (a dot matches any character) and for a rest with a line end."
  },
  {
   "property": "C66",
   "status": "proved",
   "theorems": [
    "C66_keyget2",
    "C66_keyget3",
    "C66_one_value"
   ],
   "note": "For patterns whose fixed texts have no regular expression characters: the value in some way of fitting, and the one value when a slash stands between any two placeholders."
  },
  {
   "property": "C67",
   "status": "partial",
   "theorems": [
    "C67_keymatch4_partial",
    "C67_one_segment_refuted"
   ],
   "note": "Proved for patterns with a slash between any two placeholders; with two placeholders in one segment a matching key makes the call throw a const char*."
  },
  {
   "property": "C56",
   "status": "proved",
   "theorems": [
    "C56_containment",
    "C56_mask"
   ],
   "note": "For every IPv4 text, network text and prefix length, with plain char signed or unsigned. C56_mask says what IP::Mask gives for every address and mask, also those the matcher never passes."
  },
  {
   "property": "C57",
   "status": "proved",
   "theorems": [
    "C57_exact"
   ],
   "note": "For all strings; leading zeros are accepted and read as decimal."
  },
  {
   "property": "C58",
   "status": "partial",
   "theorems": [
    "C58_accepts",
    "C58_one_reading",
    "C58_bytes_partial",
    "C58_bytes_refuted"
   ],
   "note": "The accepted strings are exactly the textual forms. The sixteen bytes are right only when every group is below 256: for any other address the stored element is the whole group."
  },
  {
   "property": "C59",
   "status": "partial",
   "theorems": [
    "C59_total",
    "C59_no_ub",
    "C59_plain_refuted",
    "C59_mapped_refuted"
   ],
   "note": "No undefined behaviour for any strings, and which exception is thrown is characterised exactly. False: a plain second address always throws; an IPv4-mapped address is never in its IPv4 network."
  },
  {
   "property": "C68",
   "status": "partial",
   "theorems": [
    "C68_containment_partial",
    "C68_families_partial",
    "C68_mapped_refuted",
    "C68_written_refuted",
    "C68_unsigned_char_refuted"
   ],
   "note": "Exact where plain char is signed, both are written alike and the network is not IPv4-mapped; false otherwise."
  },
  {
   "property": "C47",
   "status": "partial",
   "theorems": [
    "C47_same_answer_partial",
    "C47_batch_partial",
    "C47_implicit_users_partial",
    "C47_uncached",
    "C47_collision_refuted",
    "C47_map_refuted",
    "C47_json_refuted",
    "C47_disagree_refuted"
   ],
   "note": "Proved for all sequences of positional requests of strings without '$', with any matchers, for batches and for GetImplicitUsersForPermission; EnforceEx and BatchEnforceWithMatcher never use the cache, so they can disagree with Enforce. False in general: values that contain '$$', requests given as maps (their names are not in the key) and JSON values share cache entries; concrete counterexamples are proved."
  },
  {
   "property": "C48",
   "status": "partial",
   "theorems": [
    "C48_after_invalidate_partial",
    "C48_switched_off",
    "C48_stale_refuted",
    "C48_switch_refuted"
   ],
   "note": "Proved: after InvalidateCache the answers are those of the current policy, whatever happened before; with the cache off calls are those of the plain enforcer. The claim without InvalidateCache is false: it is proved for every state and every history that an answer once given is repeated until the cache is invalidated or switched off, and is back when the cache is switched on again (C48_switch_refuted)."
  },
  {
   "property": "C49",
   "status": "partial",
   "theorems": [
    "C49_linearisable_partial",
    "C49_linearisable_with_listings_partial",
    "C49_exclusion_partial",
    "C49_several_sections_refuted",
    "C49_shared_write_refuted",
    "C49_unlocked_refuted"
   ],
   "note": "Proved for any number of threads, programs and interleavings of the steps of the plain code, for every call that holds the policy mutex once (named management calls, enforcement, loading, saving, listings). False for GetImplicitUsersForPermission (locks once per subject), for the functions inherited without lock (EnforceWithMatcher, EnforceEx, GetRolesForUser, ...) and, when a section is missing, for listings that create it under a shared lock. Memory is sequentially consistent; the steps of plain code are arbitrary."
  },
  {
   "property": "C50",
   "status": "partial",
   "theorems": [
    "C50_same_as_plain_partial",
    "C50_load_model",
    "C50_locks_itself_refuted",
    "C50_basic_calls_refuted",
    "C50_never_returns_refuted",
    "C50_keeps_the_mutex_refuted",
    "C50_no_deadlock_partial"
   ],
   "note": "Exact: every public call either takes the mutex properly and does what the plain enforcer does, or (AddPolicy, RemovePolicy, HasPolicy, GetPolicy, AddGroupingPolicy, the RBAC functions, LoadFilteredPolicy, removal of grouping rules with automatic role links) asks for the mutex it holds. On a blocking mutex the latter never return and keep the mutex for ever. Programs of the former never deadlock."
  },
  {
   "property": "C51",
   "status": "partial",
   "theorems": [
    "C51_no_load_after_stop",
    "C51_stop_bounded_partial",
    "C51_stop_returns_partial",
    "C51_stop_hangs_refuted",
    "C51_hangs_for_ever_refuted",
    "C51_stop_first_refuted"
   ],
   "note": "For every program of starts and stops and every schedule: after StopAutoLoadPolicy returned no load starts or is still running. It returns after a bounded number of steps of all threads unless the owner and the timer thread wait for each other, which is reachable (Start then Stop) and then lasts for ever. StopAutoLoadPolicy before any start dereferences null."
  },
  {
   "property": "C64",
   "status": "partial",
   "theorems": [
    "C64_calls_partial",
    "C64_histories_partial",
    "C64_new",
    "C64_loaded_model",
    "C64_queries",
    "C64_role_queries",
    "C64_roles_before_links_refuted",
    "C64_batch_refuted",
    "C64_no_adapter_refuted",
    "C64_filtered_save_refuted",
    "C64_load_refuted",
    "C64_field_name_refuted"
   ],
   "note": "Proved for every call of the API (management, RBAC, queries, enforcement in all forms, loading, saving, replacing model, adapter and role manager, the switches) on every well-formed state and over histories of any length, throwing calls included; new enforcers are well-formed and every model the loader accepts can be enforced if its field names are plain. Partial because extra conditions are needed, each with a theorem showing undefined behaviour without it: links built before role queries; an adapter with batch functions for batch calls with automatic saving; an adapter for loading and saving, and a filtered one only after a filtered load; a text whose types are declared; plain field names. The expression library is assumed to have no undefined behaviour of its own (total_library)."
  },
  {
   "property": "C69",
   "status": "proved",
   "theorems": [
    "C69_domain_decision",
    "C69_other_domains_do_not_matter"
   ],
   "note": "For every reading of the matcher by the expression library that is the documented one, every managed enforcer with this model and every history of safe calls. Inheritance is limited to the role manager's level (see C29); names must not be spelled alike with their domains (see C26)."
  },
  {
   "property": "C70",
   "status": "partial",
   "theorems": [
    "C70_acl_decision_partial",
    "C70_blank_request_refuted",
    "C70_nul_rule_refuted"
   ],
   "note": "Proved for the hash set and the vector and through every history of safe calls, for requests that are not all empty and hold no NUL characters. The claim without these conditions is false: three empty strings are allowed although no rule says so, and a stored rule with a NUL character is not found by the index."
  },
  {
   "property": "C71",
   "status": "proved",
   "theorems": [
    "C71_deny_decision",
    "C71_not_deny_decision",
    "C71_priority_decision"
   ],
   "note": "For every managed enforcer with these models and every history of safe calls. Inheritance is limited to the role manager's level (see C29)."
  },
  {
   "property": "C72",
   "status": "partial",
   "theorems": [
    "C72_resource_decision",
    "C72_separate_names",
    "C72_separate_decision",
    "C72_shared_names_refuted"
   ],
   "note": "Proved in full when no name is used both for subjects and for objects (C72_separate_decision). In general g and g2 share their links: the exact decision is C72_resource_decision, and the claim is false (C72_shared_names_refuted)."
  },
  {
   "property": "C73",
   "status": "partial",
   "theorems": [
    "C73_give_role",
    "C73_take_role",
    "C73_take_all_roles",
    "C73_give_roles",
    "C73_has_role",
    "C73_roles_are_listed_rules",
    "C73_empty_user_refuted"
   ],
   "note": "Proved for every managed enforcer whose assignments are rules of type g, none twice, and no rule a rearrangement of another. Without these conditions it is false (C30, C31 refutations), and DeleteRolesForUser with an empty name takes the roles of every user (C73_empty_user_refuted)."
  },
  {
   "property": "C74",
   "status": "proved",
   "theorems": [
    "C74_asking",
    "C74_listing",
    "C74_filtering",
    "C74_adding",
    "C74_adding_many",
    "C74_removing",
    "C74_removing_filtered",
    "C74_updating",
    "C74_updating_many"
   ],
   "note": "No condition but that the policy type is declared (and for filters that they fit the rules, else the call is undefined behaviour). C74_adding_many shows that RemovePolicies and its relatives do what AddPolicies does (see C18). The rules of a hash set are listed in insertion order."
  },
  {
   "property": "C75",
   "status": "partial",
   "theorems": [
    "C75_regex_partial",
    "C75_other_texts",
    "C75_one_meaning",
    "C75_plain_text",
    "C75_choice"
   ],
   "note": "Proved for the grammar of S_Regex.v, in which every text has at most one meaning (C75_one_meaning). It has counted repetition, lazy quantifiers, escapes in classes, and ^ and $ at the ends of alternatives. It also has control and negated escapes and the named classes. Missing: back references, look-ahead, word boundaries, anchors elsewhere and escapes with digits, which are handed to std::regex unmodelled (C75_other_texts)."
  },
  {
   "property": "C76",
   "status": "partial",
   "theorems": [
    "C76_names",
    "C76_no_other_names",
    "C76_keymatch_decision",
    "C76_keymatch2_decision",
    "C76_ipmatch_decision_partial",
    "C76_ip_empty_policy_refuted",
    "C76_ip_plain_rule_refuted",
    "C76_rbac_pattern_decision_partial"
   ],
   "note": "For every expression library that reads the matcher texts as documented. keyMatch and keyMatch2 as stated (actions in the grammar of C75). ipMatch: proved for IPv4 networks and addresses and a non-empty policy; false otherwise: with an empty policy every request throws (C76_ip_empty_policy_refuted), and a rule about a single address makes requests throw (C76_ip_plain_rule_refuted). Roles with regexMatch: for role managers without pattern matching."
  },
  {
   "property": "C77",
   "status": "partial",
   "theorems": [
    "C77_same_fields_decision_partial",
    "C77_root_decision",
    "C77_object_roles_decision_partial"
   ],
   "note": "For every expression library that reads the matcher texts as documented. Exact comparison: for values without NUL characters; the request of empty values only is allowed as well when there is no rule to look at, which the theorem says precisely. Root: as stated. Roles of objects: for role managers without pattern matching."
  },
  {
   "property": "C78",
   "status": "partial",
   "theorems": [
    "C78_loaded_partial",
    "C78_decision_partial",
    "C78_rbac_files_partial",
    "C78_deny_files_partial",
    "C78_not_deny_files_partial",
    "C78_priority_files_partial",
    "C78_domain_files_partial",
    "C78_resource_files_partial",
    "C78_basic_files_partial",
    "C78_no_policy",
    "C78_bad_model",
    "C78_reload_partial",
    "C78_two_lines_refuted"
   ],
   "note": "For every expression library that reads the matchers as documented; chains of at most ten links. Proved for policies of which no grouping rule is a rearrangement of another one, names without colons when there are domains, and requests that are not all empty. False: a definition continued on a second line, as in rbac_model_in_multi_line.conf, loses the second line (C78_two_lines_refuted); InitWithFile without a policy path throws where the constructor does not (C78_no_policy)."
  },
  {
   "property": "C79",
   "status": "partial",
   "theorems": [
    "C79_last_set",
    "C79_objects",
    "C79_accepts",
    "C79_typed",
    "C79_int",
    "C79_empty_section_refuted",
    "C79_third_part_refuted"
   ],
   "note": "Proved for keys of the form option or section::option with no other colon. False for a key with an empty section (set to default, read nowhere) and for keys with a third part (they change another option). A number outside int is undefined behaviour of atoi. GetFloat is not modelled."
  },
  {
   "property": "C80",
   "status": "proved",
   "theorems": [
    "C80_set",
    "C80_stays",
    "C80_enforcing_off",
    "C80_notify_off",
    "C80_build",
    "C80_set_model_refuted",
    "C80_build_off_refuted"
   ],
   "note": "Auto-save off is C41_off. What users might expect beyond the statement is refuted: SetModel and LoadModel put all switches on again, and AddGroupingPolicy links the rule even when automatic link building is off."
  },
  {
   "property": "C81",
   "status": "partial",
   "theorems": [
    "C81_has_link",
    "C81_questions_leave_no_trace",
    "C81_roles_of_link_names",
    "C81_roles_of_concrete_names",
    "C81_users_depend_on_questions_refuted"
   ],
   "note": "GetUsers is refuted: it lists concrete names only if they were asked about before. Without names told apart the answers depend on the order of calls (C24_matching_order_refuted)."
  },
  {
   "property": "C82",
   "status": "proved",
   "theorems": [
    "C82_decision",
    "C82_resource_decision"
   ],
   "note": "The role functions of the matcher leave no trace in the role manager in the model; C81_questions_leave_no_trace shows for names told apart that the trace the code leaves changes no answer."
  },
  {
   "property": "C83",
   "status": "partial",
   "theorems": [
    "C83_default",
    "C83_decision",
    "C83_stays_ready",
    "C83_comes_to_end",
    "C83_throws",
    "C83_no_rules",
    "C83_index_unset_refuted"
   ],
   "note": "An effector that leaves the explain index alone makes the enforcer read an uninitialised variable (C83_index_unset_refuted). The effector cannot call the enforcer itself."
  },
  {
   "property": "C84",
   "status": "proved",
   "theorems": [
    "C84_role_manager",
    "C84_before_first_request",
    "C84_matching_manager",
    "C84_old_manager_is_asked_refuted"
   ],
   "note": "Without SetEvaluator after the first request the replacement does not reach the matcher (C84_old_manager_is_asked_refuted)."
  },
  {
   "property": "C85",
   "status": "partial",
   "theorems": [
    "C85_enable_log_changes_nothing",
    "C85_same_answers",
    "C85_enable_log_refuted",
    "C85_logging_refuted",
    "C85_print_roles"
   ],
   "note": "EnableLog changes a copy of the logger, so it changes no answer (proved for all histories) but does not switch the log on either. With a logger that is on, installed by LogUtil::SetLogger, every request recurses without end. PrintRoles is undefined behaviour exactly for a manager without roles."
  },
  {
   "property": "C86",
   "status": "partial",
   "theorems": [
    "C86_address",
    "C86_one_text",
    "C86_network",
    "C86_mask_partial",
    "C86_mask_refuted",
    "C86_network_address_refuted",
    "C86_ipv6_refuted"
   ],
   "note": "IPv4 addresses and network addresses print right. Masks print right only for prefixes of whole bytes (and signed char); for every other prefix the text is not an address. IP::toString of the address of a network reads out of bounds, and IPv6 addresses print as four numbers."
  },
  {
   "property": "C87",
   "status": "proved",
   "theorems": [
    "C87_same_answer",
    "C87_any_order",
    "C87_completed"
   ],
   "note": "C87_completed determines the request that a map with missing fields stands for, over all histories that start with a complete request. Without one before, the request fails (C11_map_history_refuted)."
  },
  {
   "property": "C88",
   "status": "proved",
   "theorems": [
    "C88_copies_agree",
    "C88_copies_decide",
    "C88_own_switches",
    "C88_own_model",
    "C88_own_parts",
    "C88_shared_parts",
    "C88_on_model",
    "C88_independent_refuted",
    "C88_shared_model_refuted",
    "C88_shared_model_loses_roles_refuted"
   ],
   "note": "Copies agree, decide alike and keep their switches in every history; that a copy is independent of its original, and that two enforcers on one Model agree, is false and refuted. Matchers with eval(...) are left out of the statement on answers."
  },
  {
   "property": "C89",
   "status": "partial",
   "theorems": [
    "C89_reported",
    "C89_outcome",
    "C89_rules_anyway",
    "C89_saving",
    "C89_unwritable",
    "C89_loading",
    "C89_refused_rule_decides_refuted",
    "C89_refused_role_refuted"
   ],
   "note": "Reporting is proved in full. That a refused change is not in force is false: the rules in memory are the same whatever the storage answers (C89_rules_anyway), so a refused rule decides, and a role whose removal was refused still gives access although its rule is gone."
  },
  {
   "property": "C90",
   "status": "partial",
   "theorems": [
    "C90_load_gets_last_save",
    "C90_loaders_agree",
    "C90_unsaved_unseen",
    "C90_lost_update_refuted"
   ],
   "note": "All but the last sentence is proved, for rules a policy text can carry. The last sentence is false: SavePolicy writes the whole policy of the caller, so a rule another enforcer saved in between is lost (C90_lost_update_refuted). Calls happen one after the other: files half written are not modelled."
  },
  {
   "property": "C91",
   "status": "partial",
   "theorems": [
    "C91_alone",
    "C91_cache_guarded",
    "C91_warm",
    "C91_answers",
    "C91_no_deadlock",
    "C91_cold_race_refuted",
    "C91_invalidate_race_refuted",
    "C91_stale_store_refuted",
    "C91_forgotten_refuted"
   ],
   "note": "No deadlock, and the mutex keeps the cache itself free of races among threads that only ask (all programs and interleavings). For requests answered before there is no race at all and the answers are right. The claim is false otherwise: two threads whose requests are not in the cache race in the evaluator (for all states and requests), InvalidateCache takes no lock, and an answer found before it can be stored after it; when it falls between the look for an answer and its reading, the request is denied and the denial stays in the cache. C91_answers treats an evaluation as one step."
  },
  {
   "property": "C92",
   "status": "partial",
   "theorems": [
    "C92_equal",
    "C92_equivalence",
    "C92_v4",
    "C92_v6_partial",
    "C92_written_refuted",
    "C92_mapped_refuted"
   ],
   "note": "Exact for addresses as bytes: an equivalence, and equality of the bytes in the long form. IPv4 texts compare by their four numbers. IPv6 texts only when written alike; the claim is false otherwise: two notations of one address may be stored differently (C92_written_refuted), and an IPv4 address never equals its mapped form (C92_mapped_refuted)."
  },
  {
   "property": "C93",
   "status": "partial",
   "theorems": [
    "C93_in_step_partial",
    "C93_same_rules_partial",
    "C93_joins",
    "C93_update_refuted",
    "C93_update_lost_refuted",
    "C93_remove_many_refuted",
    "C93_file_refuted"
   ],
   "note": "Proved for histories of additions, removals (single and filtered), role calls, queries and SavePolicy. False for updates: the storage is not told, the others load the old rules, and the next change elsewhere takes the update back (C93_update_refuted, C93_update_lost_refuted); for batch removals (C93_remove_many_refuted); and with the file adapter, whose watcher tells of changes the file does not have (C93_file_refuted). The watchers call LoadPolicy because the user wired them so: the callback SetWatcher hands over is dropped. They do so after the call; calls that throw are excluded."
  },
  {
   "property": "C94",
   "status": "partial",
   "theorems": [
    "C94_default_manager",
    "C94_informed_partial",
    "C94_add_heard",
    "C94_refused",
    "C94_strict_refuted",
    "C94_remove_told",
    "C94_remove_refuted",
    "C94_update_refuted"
   ],
   "note": "False as stated. Proved, for every manager whatever it answers: once the links were built, and as long as the calls return and are in order (rules removed and loaded with automatic building on; no rearranged rules; updates of a rule whose link nobody else lists), the links the manager was told of are exactly those the grouping policy lists. The modelled calls are the same code as those of the default manager (C94_default_manager). Exactly what AddGroupingPolicy announces (a new rule twice). Refuted: a manager that refuses a link it has makes every AddGroupingPolicy throw with the rule stored; RemoveGroupingPolicy announces the removed link when automatic building is off; an update makes the manager forget a link another type lists. Not modelled: queries of such a manager, and matchers that use them."
  },
  {
   "property": "C95",
   "status": "partial",
   "theorems": [
    "C95_dutiful",
    "C95_in_force",
    "C95_history",
    "C95_rules_anyway",
    "C95_added_role",
    "C95_revoked_role_stays_refuted",
    "C95_delete_user_refuted",
    "C95_access_stays_refuted"
   ],
   "note": "False as stated. Proved for every watcher that leaves the enforcer alone: calls with nothing left to do after the watcher was told leave the very same enforcer and end as the watcher ended (C95_in_force), so do histories of them (C95_history); every call that makes one change leaves the same rules and tells the storage the same (C95_rules_anyway); an added assignment is in force (C95_added_role). Refuted: RemoveGroupingPolicy rebuilds the links only after the watcher was told, so a role taken while the watcher fails stays in force, for every tidy enforcer; DeleteUser stops half way and leaves all permissions; a concrete decision that stays allowed. Watchers that change the enforcer from Update are the subject of C107."
  },
  {
   "property": "C96",
   "status": "partial",
   "theorems": [
    "C96_never_called_back_refuted",
    "C96_wired_by_hand",
    "C96_extended_refuted",
    "C96_synced_refuted",
    "C96_synced_threads_refuted"
   ],
   "note": "False as stated; that a plain enforcer tells its watcher through Update is C42. Refuted for all histories: the callback SetWatcher hands over is dropped (the template in Watcher is not virtual and is empty), so an enforcer nobody calls never changes, whatever happens elsewhere; wired by hand the enforcers are those of C93 (C96_wired_by_hand). The extended interfaces are never used: IsInstanceOf looks at the type of the pointer, so watchers that agree on Update cannot be told apart (C96_extended_refuted). A synchronised enforcer keeps its watcher in a member nothing reads: the watcher it would tell stays null in every history of calls that end, and in every linearisable interleaving."
  },
  {
   "property": "C97",
   "status": "partial",
   "theorems": [
    "C97_answers_partial",
    "C97_alike_partial",
    "C97_rbac_partial",
    "C97_joins",
    "C97_update_refuted",
    "C97_priority_refuted"
   ],
   "note": "Proved for the calls of C93 that also keep the links in order (no updates and no batch removals), for rules kept in a vector, and for the three effects that do not depend on the order of rules. False for updates (C97_update_refuted: who was replaced in a rule keeps the access elsewhere) and for the effect Priority (C97_priority_refuted: the storage may list its rules in another order than the enforcer that made the change). The enforcers have the same limit on role chains; calls that throw are excluded."
  },
  {
   "property": "C98",
   "status": "partial",
   "theorems": [
    "C98_one_at_a_time",
    "C98_alone",
    "C98_answers",
    "C98_kinds",
    "C98_race_refuted",
    "C98_other_manager_refuted",
    "C98_missing_refuted",
    "C98_other_roles_refuted",
    "C98_fails_refuted"
   ],
   "note": "False: every enforcement writes to one static, unprotected pool of function objects, so any two enforcements in two threads race (C98_race_refuted). Even if the operations on the pool did not tear, an enforcer can be given the role function of another one and answer by its roles from then on (C98_other_roles_refuted), or none, and throw (C98_fails_refuted). Proved: when one thread at a time is in GetExprtkFunction everybody gets their own functions and answers, and in every schedule a function has the type asked for."
  },
  {
   "property": "C99",
   "status": "partial",
   "theorems": [
    "C99_positional",
    "C99_cache_bound",
    "C99_objects_refuted",
    "C99_no_bound_refuted",
    "C99_names_refuted",
    "C99_cache_refuted"
   ],
   "note": "False for the function objects (every request leaves nine and one for each role definition, C99_objects_refuted), for the names of requests given as maps (C99_names_refuted) and for the cache (one entry for each different request, never dropped: C99_cache_refuted, C99_cache_bound). Proved for the variables and registered functions after positional requests (C99_positional). Counted are entries and objects, not bytes; what exprtk allocates inside is not modelled."
  },
  {
   "property": "C100",
   "status": "partial",
   "theorems": [
    "C100_add",
    "C100_remove",
    "C100_takes_effect",
    "C100_first_rule_refuted",
    "C100_anagram_refuted"
   ],
   "note": "Proved for AddPolicy and RemovePolicy under all four effects as long as a rule is consulted before and after and the matcher has a truth value for the rules, also when saving fails (C100_add, C100_remove; the rules that match take effect at once: C100_takes_effect). False for the first rule of all, because with no rule the matcher is evaluated for an empty rule (C100_first_rule_refuted), and for a removed rule of which a rearrangement is stored (C100_anagram_refuted)."
  },
  {
   "property": "C101",
   "status": "partial",
   "theorems": [
    "C101_copy_answers",
    "C101_moved_from",
    "C101_own_cache",
    "C101_stale_refuted",
    "C101_unaided_agree"
   ],
   "note": "The first sentence is proved (C101_copy_answers; the object moved from stays usable with an empty cache, C101_moved_from). The second is false: the copies share the policy, but each has a cache of its own (C101_own_cache), so what a copy answered once it answers for ever, whatever is changed and invalidated through the others (C101_stale_refuted). Proved: copies whose caches are empty or off give the same answers, those of the shared policy, after every history of safe calls (C101_unaided_agree)."
  },
  {
   "property": "C102",
   "status": "proved",
   "theorems": [
    "C102_default",
    "C102_decides",
    "C102_throws",
    "C102_throws_early",
    "C102_no_rules",
    "C102_request",
    "C102_request_map",
    "C102_off",
    "C102_field_missing",
    "C102_never_cleaned"
   ],
   "note": "The calls an evaluator gets are written out in S_OwnEvaluator.v (introduced, question, consults); its state is threaded through them, so the state it is left in shows that there were no other calls. C102_decides gives decision, explanation and the rules asked about; C102_throws the exceptions; C102_no_rules the empty policy; C102_field_missing the exception of the hash index when the evaluator does not give a request field back."
  },
  {
   "property": "C103",
   "status": "partial",
   "theorems": [
    "C103_default",
    "C103_default_queries",
    "C103_decides",
    "C103_throws",
    "C103_queries",
    "C103_unlinked_ub",
    "C103_after_build",
    "C103_implicit_roles",
    "C103_implicit_permissions",
    "C103_implicit_users",
    "C103_endless_refuted",
    "C103_half_refuted",
    "C103_decided_refuted"
   ],
   "note": "All but the last sentence is proved; that sentence is false. C103_endless_refuted: with a manager that always names a new role GetImplicitRolesForUser never returns (C103_implicit_roles says it returns when finitely many names are reachable, cycles included, and otherwise not). C103_half_refuted: after SetRoleManager alone GetImplicitRolesForUser asks the new manager, GetRolesForUser and Enforce the old one. C103_decided_refuted: on an enforcer that has already decided something, Enforce asks the old manager even after BuildRoleLinks, because the evaluator keeps its functions. C103_unlinked_ub: before the links are built the queries dereference a null pointer."
  },
  {
   "property": "C104",
   "status": "partial",
   "theorems": [
    "C104_chosen",
    "C104_roles",
    "C104_determined",
    "C104_conjunction",
    "C104_lengths",
    "C104_every_field_refuted"
   ],
   "note": "All but the last sentence is proved; that sentence is false (C104_every_field_refuted; what follows for decisions is C14_selection_refuted). Field names may not hold characters special in regular expressions (S_Load.ordinary). C104_conjunction asks for names without blanks, '=', '&' and '.', of which none is the beginning of another."
  },
  {
   "property": "C105",
   "status": "partial",
   "theorems": [
    "C105_same_rules",
    "C105_nothing_told",
    "C105_silent_call",
    "C105_decision",
    "C105_roles",
    "C105_rebuilt",
    "C105_grouping_refuted",
    "C105_remove_many_refuted"
   ],
   "note": "(a)-(d) proved; (c), (d) for two-field grouping rules, arguments among the names and rules in use, and no matching function. (e) refuted: a grouping rule stored directly gives no role until BuildRoleLinks; Model::RemovePolicies erases and then increments the erased iterator."
  },
  {
   "property": "C106",
   "status": "partial",
   "theorems": [
    "C106_previous",
    "C106_harmless",
    "C106_first_throws",
    "C106_sticks",
    "C106_indexed_throws",
    "C106_decision_refuted"
   ],
   "note": "False of the code: a document is dropped. After a complete request the field keeps the value of the request before, over every history (C106_previous), so the same request is allowed or denied by who asked last (C106_decision_refuted); it is harmless exactly where the matcher ignores the field (C106_harmless). As the first request it throws when the matcher needs the field (C106_first_throws), and then every later request with that matcher throws (C106_sticks); with the hash index it throws without a trace (C106_indexed_throws)."
  },
  {
   "property": "C107",
   "status": "partial",
   "theorems": [
    "C107_after_the_call",
    "C107_in_step_partial",
    "C107_same_change_partial",
    "C107_file_undone_refuted",
    "C107_file_no_change_refuted",
    "C107_update_undone_refuted",
    "C107_role_without_rule_refuted"
   ],
   "note": "C107_after_the_call holds for every watcher: its function starts from the state that a call with nothing left to do leaves, and the call ends as the function ends. With a storage that does as it is told, the rules stay those of the storage over every history, and each call leaves the rules it would leave otherwise. The claim is false of the code with the file adapters (every change is undone although the call answers true), for updates with every adapter (no storage is told of them), and AddGroupingPolicy can leave a role that no rule gives. Batch removals are outside the positive theorems because they add the rules they should remove (C18)."
  },
  {
   "property": "C108",
   "status": "partial",
   "theorems": [
    "C108_refused_partial",
    "C108_rule_stays_refuted",
    "C108_stuck_refuted",
    "C108_way_back",
    "C108_connected",
    "C108_others_lose_roles_refuted",
    "C108_batch_refuted",
    "C108_update_refuted"
   ],
   "note": "Proved for every state with built links: the call throws, nobody is told, every request is decided as before for every matcher and everybody has the roles they had. The claim is false of the code in the rest: the rule is stored, and while it is stored every call that takes grouping rules away fails, whatever it is about, and users whose rules were added later lose their roles. C108_way_back: removing the rule throws as well, and restores exactly the state from before it was offered. In a batch the rules before the short one take effect, and an update loses the old rule."
  },
  {
   "property": "C109",
   "status": "partial",
   "theorems": [
    "C109_same_partial",
    "C109_enforce_partial",
    "C109_library",
    "C109_rbac",
    "C109_any_case",
    "C109_lost_value_refuted",
    "C109_wrongly_allowed_refuted",
    "C109_twins_index_refuted",
    "C109_poisoned_refuted",
    "C109_first_refuted"
   ],
   "note": "Proved when no two names in use differ in case only: all sequences of requests are answered as the other properties say (their model compares names exactly), with the names in expressions read in the spelling of the model; and with the rules in a vector the letters in a request by name never matter. The claim is false of the code otherwise: of two such request fields the value of the first is never looked at, so requests are allowed that no rule is about; with the hash index such a model throws on every request; and with the hash index one request by name in other letters makes that request and every later one throw."
  },
  {
   "property": "C110",
   "status": "partial",
   "theorems": [
    "C110_rbac",
    "C110_domains_partial",
    "C110_deny",
    "C110_acl_partial",
    "C110_colons_refuted",
    "C110_empty_name_refuted",
    "C110_nul_refuted"
   ],
   "note": "Proved for rbac_model.conf and for roles with an effect column (all effects, with allow and deny kept) for every renaming; with domains when no two names in use are spelled alike with their domains; for access control lists without NUL characters. The claim is false of the code otherwise: names with two colons in a model with domains, the empty name when there are no rules, and names with a NUL character under the hash index do carry a meaning."
  },
  {
   "property": "C111",
   "status": "partial",
   "theorems": [
    "C111_reads_partial",
    "C111_layout_partial",
    "C111_notation_partial",
    "C111_quoted_operator_refuted",
    "C111_tight_refuted",
    "C111_characters_refuted"
   ],
   "note": "Proved for matchers in which names and operators stand apart and the quoted texts hold printable ASCII characters without quotes, backslashes, && and ||. The claim is false of the code otherwise: && in quotes becomes and, so that a rule about R&&D is one about RandD; && without spaces joins the names beside it and every request throws; an apostrophe or a letter outside ASCII in quotes makes every request throw. Numbers, escapes in strings and special functions are outside the modelled lexer."
  },
  {
   "property": "C112",
   "status": "partial",
   "theorems": [
    "C112_stored_decides",
    "C112_any_order",
    "C112_restart_partial",
    "C112_life_partial",
    "C112_rbac_life_partial",
    "C112_effect_life_partial",
    "C112_domain_life_partial",
    "C112_clear_refuted",
    "C112_comma_refuted",
    "C112_depth_refuted",
    "C112_unsaved_refuted"
   ],
   "note": "Proved for every model and matcher with a reading whose rules are kept in a vector, for histories of the calls that keep role links in order, and for values a policy file can carry. The claim is false of the code otherwise: ClearPolicy leaves role links that still grant until the restart, a value with a comma comes back as a rule of another shape and requests then throw, the depth of a role manager is not in the files, and with automatic saving on a change that was answered with true is lost unless SavePolicy is called."
  },
  {
   "property": "C113",
   "status": "partial",
   "theorems": [
    "C113_as_table_partial",
    "C113_table_decides",
    "C113_same_answers_partial",
    "C113_decide_alike_partial",
    "C113_restart_partial",
    "C113_anagram_refuted"
   ],
   "note": "Proved as a simulation of a plain table by the enforcer, for sequences of any length. The table is that of the code where an update onto a rule that is there already drops the old rule and answers no (C19). Without the condition on rearranged values the claim is false (C113_anagram_refuted). Batch adds are covered where they are defined: with no adapter, an adapter that takes batches or no automatic saving (elsewhere C64). Missing: batch removals, which add (C18), batch updates, and updates of grouping rules, after which the links need not be those of the rules. Where the library keeps rules in an unordered_set, listings are meant up to order."
  },
  {
   "property": "C114",
   "status": "partial",
   "theorems": [
    "C114_decision",
    "C114_domain_decision",
    "C114_late_roles_ignored",
    "C114_role_after_request_refuted",
    "C114_load_after_request_refuted"
   ],
   "note": "The decisions before any link are proved for every matcher the expression library reads, all four effects and histories of any length. The last sentence is false: once a request was made without links, the evaluator keeps the role function of that request, so a grouping rule added afterwards is stored, listed and answered with true but gives no access until the evaluator is replaced (C114_role_after_request_refuted); without the early request it does. C114_late_roles_ignored proves this for every model of the kind above and every later history of calls in order, rebuilding of the links included, that keeps the evaluator. The roles of a policy file loaded after the first request are not in force either (C114_load_after_request_refuted)."
  }
 ]
}