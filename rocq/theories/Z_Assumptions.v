(** The assumptions of every theorem named in MANIFEST.json (generated from it). *)
From Verif Require Import T_Agree T_BuiltIn T_Cached T_CachedCopies T_CachedMore T_CachedThreads T_Calls T_Case T_Change T_Cluster T_Config T_Copies T_Direct T_Enforce T_Files T_Fleet T_Functions T_Index T_Ip T_IpEqual T_IpText T_Json T_Late T_Load T_Log T_MapRequest T_MatchRole T_Memory T_Models T_Notify T_Occurrences T_Options T_OwnEffector T_OwnEvaluator T_OwnQueries T_OwnRoles T_OwnWatcher T_Parts T_Pattern T_Persist T_Policy T_Pool T_Rbac T_Refuse T_Reload T_Rename T_Replace T_Restart T_Rewrite T_RoleApi T_Roles T_Safe T_Select T_Short T_Standard T_Switch T_Synced T_Table T_Text T_Ticker T_Unlinked T_Users T_Wiring.

Print Assumptions C01_allow_override.
Print Assumptions C02_deny_override.
Print Assumptions C03_allow_and_deny.
Print Assumptions C04_priority.
Print Assumptions C05_unknown_effect.
Print Assumptions C06_explanation_sound.
Print Assumptions C07_disabled_allows_partial.
Print Assumptions C07_disabled_allows_refuted.
Print Assumptions C08_no_match_denied_partial.
Print Assumptions C08_empty_policy_partial.
Print Assumptions C08_default_deny_refuted.
Print Assumptions C08_indexed_default_deny_refuted.
Print Assumptions C09_order_irrelevant.
Print Assumptions C09_priority_order_matters.
Print Assumptions C10_enforcement_is_a_read.
Print Assumptions C10_map_enforcement_is_a_read.
Print Assumptions C10_pattern_query_refuted.
Print Assumptions C11_earlier_requests_irrelevant.
Print Assumptions C11_fresh_evaluator.
Print Assumptions C11_map_history_refuted.
Print Assumptions C11_failed_compile_sticks_refuted.
Print Assumptions C11_json_history_refuted.
Print Assumptions C11_role_function_history_refuted.
Print Assumptions C12_batch_pointwise.
Print Assumptions C13_request_of_wrong_length_refused.
Print Assumptions C13_rule_of_wrong_length_raises.
Print Assumptions C14_index_agrees_partial.
Print Assumptions C14_custom_matcher_refuted.
Print Assumptions C14_empty_request_refuted.
Print Assumptions C14_selection_refuted.
Print Assumptions C14_effect_column_refuted.
Print Assumptions C15_has_policy_partial.
Print Assumptions C15_add_policy_partial.
Print Assumptions C15_remove_policy_partial.
Print Assumptions C15_add_grouping_partial.
Print Assumptions C15_remove_grouping_partial.
Print Assumptions C15_permuted_rule_refuted.
Print Assumptions C16_no_duplicates_partial.
Print Assumptions C16_set_semantics_refuted.
Print Assumptions C16_loaded_duplicates_refuted.
Print Assumptions C17_add_policies_partial.
Print Assumptions C17_permuted_rule_refuted.
Print Assumptions C18_remove_policies_never_removes.
Print Assumptions C18_remove_policies_refuted.
Print Assumptions C18_model_missing.
Print Assumptions C18_model_refuted.
Print Assumptions C19_update_policy_partial.
Print Assumptions C19_update_policies_partial.
Print Assumptions C19_update_grouping_partial.
Print Assumptions C19_failed_update_refuted.
Print Assumptions C19_failed_update_loses_old.
Print Assumptions C19_failed_batch_refuted.
Print Assumptions C20_get_filtered.
Print Assumptions C20_get_filtered_grouping.
Print Assumptions C20_remove_filtered.
Print Assumptions C20_remove_filtered_grouping.
Print Assumptions C20_out_of_range_refuted.
Print Assumptions C21_named_listings.
Print Assumptions C21_named_roles.
Print Assumptions C21_all_listings.
Print Assumptions C22_types_isolated.
Print Assumptions C22_types_isolated_in_histories.
Print Assumptions C23_clear_policy_partial.
Print Assumptions C23_roles_remain_refuted.
Print Assumptions C62_comparison_ignores_order.
Print Assumptions C62_comparison_refuted.
Print Assumptions C62_equal_rules_compare_equal_partial.
Print Assumptions C65_add_permission_partial.
Print Assumptions C65_delete_permission_for_user_partial.
Print Assumptions C65_delete_permission.
Print Assumptions C65_permuted_permission_refuted.
Print Assumptions C24_has_link_is_bounded_reachability.
Print Assumptions C24_names_without_colons.
Print Assumptions C24_names_without_domains.
Print Assumptions C24_two_domains_rejected.
Print Assumptions C24_matching_sound_partial.
Print Assumptions C24_matching_order_refuted.
Print Assumptions C25_add_link.
Print Assumptions C25_delete_link.
Print Assumptions C25_delete_outcome.
Print Assumptions C25_clear.
Print Assumptions C25_delete_with_matching_refuted.
Print Assumptions C26_has_link.
Print Assumptions C26_get_roles.
Print Assumptions C26_role_calls_isolated.
Print Assumptions C26_colons_refuted.
Print Assumptions C26_two_domains_refuted.
Print Assumptions C27_converse.
Print Assumptions C27_unknown_name_refuted.
Print Assumptions C27_colons_refuted.
Print Assumptions C28_implicit_roles_are_the_closure.
Print Assumptions C28_terminates_on_every_graph.
Print Assumptions C29_enforced_roles_are_listed_partial.
Print Assumptions C29_long_chain_refuted.
Print Assumptions C30_links_mirror_policy_partial.
Print Assumptions C30_get_roles_partial.
Print Assumptions C30_get_users_partial.
Print Assumptions C30_histories.
Print Assumptions C30_add_permuted_rule_refuted.
Print Assumptions C30_update_permuted_rule_refuted.
Print Assumptions C30_failed_update_refuted.
Print Assumptions C30_clear_policy_refuted.
Print Assumptions C30_failed_load_refuted.
Print Assumptions C31_revoked_role_is_gone_partial.
Print Assumptions C31_role_stays_refuted.
Print Assumptions C31_access_stays_refuted.
Print Assumptions C31_duplicate_rule_refuted.
Print Assumptions C32_delete_user_partial.
Print Assumptions C32_delete_role_partial.
Print Assumptions C32_deleted_user_has_no_roles_partial.
Print Assumptions C32_empty_name_refuted.
Print Assumptions C32_no_role_definition_refuted.
Print Assumptions C32_other_type_refuted.
Print Assumptions C33_implicit_permissions_partial.
Print Assumptions C33_empty_role_refuted.
Print Assumptions C35_separate_definitions_refuted.
Print Assumptions C35_definitions_share_links.
Print Assumptions C35_single_definition_partial.
Print Assumptions C34_implicit_users_partial.
Print Assumptions C34_short_permission_refuted.
Print Assumptions C34_domains_refuted.
Print Assumptions C36_rbac_decision.
Print Assumptions C36_rbac_histories.
Print Assumptions C36_unbounded_chain_refuted.
Print Assumptions C60_split.
Print Assumptions C60_join_split.
Print Assumptions C60_split_join.
Print Assumptions C60_split_join_char.
Print Assumptions C60_split_join_refuted.
Print Assumptions C60_join_nothing_refuted.
Print Assumptions C60_trim.
Print Assumptions C60_trim_determined.
Print Assumptions C60_trim_idempotent.
Print Assumptions C60_remove_comments.
Print Assumptions C60_set_subtract.
Print Assumptions C60_occurrences.
Print Assumptions C60_occurrences_unique.
Print Assumptions C60_remove_duplicates.
Print Assumptions C60_array_to_string.
Print Assumptions C60_ends_with_partial.
Print Assumptions C60_ends_with_refuted.
Print Assumptions C61_replace.
Print Assumptions C61_word_characters.
Print Assumptions C61_replace_determined.
Print Assumptions C61_keys.
Print Assumptions C61_rule_text_partial.
Print Assumptions C61_unknown_field.
Print Assumptions C61_parenthesised_refuted.
Print Assumptions C61_escapes_refuted.
Print Assumptions C63_escape_partial.
Print Assumptions C63_run_characters.
Print Assumptions C63_variable_partial.
Print Assumptions C63_escape_refuted.
Print Assumptions C37_save_load.
Print Assumptions C37_save_load_same.
Print Assumptions C37_string_partial.
Print Assumptions C37_string_empty_refuted.
Print Assumptions C37_separator_refuted.
Print Assumptions C37_empty_rule_refuted.
Print Assumptions C38_load_replaces.
Print Assumptions C38_load_is_independent.
Print Assumptions C38_load_twice.
Print Assumptions C38_unknown_type.
Print Assumptions C39_failed_load_refuted.
Print Assumptions C39_empty_text_refuted.
Print Assumptions C39_missing_file_refuted.
Print Assumptions C39_short_rule_refuted.
Print Assumptions C39_links_partial.
Print Assumptions C40_crash_refuted.
Print Assumptions C40_wrong_rule_refuted.
Print Assumptions C40_prefix_partial.
Print Assumptions C43_filter_refuted.
Print Assumptions C43_witness_refuted.
Print Assumptions C43_no_filter_refuted.
Print Assumptions C43_save_refused.
Print Assumptions C43_after_load_refuted.
Print Assumptions C43_save_after_load_refuted.
Print Assumptions C43_full_load.
Print Assumptions C44_file.
Print Assumptions C44_string.
Print Assumptions C44_string_refuted.
Print Assumptions C41_forwards_once.
Print Assumptions C41_storage_follows_partial.
Print Assumptions C41_off.
Print Assumptions C41_update_refuted.
Print Assumptions C41_update_silent_refuted.
Print Assumptions C41_remove_many_refuted.
Print Assumptions C41_short_rule_refuted.
Print Assumptions C41_batch_refuted.
Print Assumptions C41_string_adapter_refuted.
Print Assumptions C41_set_model_refuted.
Print Assumptions C42_once.
Print Assumptions C42_at_most_once.
Print Assumptions C42_history.
Print Assumptions C42_true_is_change.
Print Assumptions C42_failed_update_refuted.
Print Assumptions C42_short_rule_refuted.
Print Assumptions C42_save_refuted.
Print Assumptions C42_empty_batch_refuted.
Print Assumptions C42_set_model_refuted.
Print Assumptions C45_sound.
Print Assumptions C45_complete_partial.
Print Assumptions C45_missing.
Print Assumptions C45_contents.
Print Assumptions C45_stays.
Print Assumptions C45_missing_matcher_refuted.
Print Assumptions C45_field_name_refuted.
Print Assumptions C46_accepts.
Print Assumptions C46_reads.
Print Assumptions C46_comments.
Print Assumptions C46_set.
Print Assumptions C46_blank_line_refuted.
Print Assumptions C52_released_partial.
Print Assumptions C52_released_refuted.
Print Assumptions C53_no_star.
Print Assumptions C53_star.
Print Assumptions C54_get.
Print Assumptions C54_nothing.
Print Assumptions C55_keymatch2_partial.
Print Assumptions C55_keymatch3_partial.
Print Assumptions C55_star_alone.
Print Assumptions C55_text_refuted.
Print Assumptions C55_rest_refuted.
Print Assumptions C55_anchored.
Print Assumptions C66_keyget2.
Print Assumptions C66_keyget3.
Print Assumptions C66_one_value.
Print Assumptions C67_keymatch4_partial.
Print Assumptions C67_one_segment_refuted.
Print Assumptions C56_containment.
Print Assumptions C56_mask.
Print Assumptions C57_exact.
Print Assumptions C58_accepts.
Print Assumptions C58_one_reading.
Print Assumptions C58_bytes_partial.
Print Assumptions C58_bytes_refuted.
Print Assumptions C59_total.
Print Assumptions C59_no_ub.
Print Assumptions C59_plain_refuted.
Print Assumptions C59_mapped_refuted.
Print Assumptions C68_containment_partial.
Print Assumptions C68_families_partial.
Print Assumptions C68_mapped_refuted.
Print Assumptions C68_written_refuted.
Print Assumptions C68_unsigned_char_refuted.
Print Assumptions C47_same_answer_partial.
Print Assumptions C47_batch_partial.
Print Assumptions C47_implicit_users_partial.
Print Assumptions C47_uncached.
Print Assumptions C47_collision_refuted.
Print Assumptions C47_map_refuted.
Print Assumptions C47_json_refuted.
Print Assumptions C47_disagree_refuted.
Print Assumptions C48_after_invalidate_partial.
Print Assumptions C48_switched_off.
Print Assumptions C48_stale_refuted.
Print Assumptions C48_switch_refuted.
Print Assumptions C49_linearisable_partial.
Print Assumptions C49_linearisable_with_listings_partial.
Print Assumptions C49_exclusion_partial.
Print Assumptions C49_several_sections_refuted.
Print Assumptions C49_shared_write_refuted.
Print Assumptions C49_unlocked_refuted.
Print Assumptions C50_same_as_plain_partial.
Print Assumptions C50_load_model.
Print Assumptions C50_locks_itself_refuted.
Print Assumptions C50_basic_calls_refuted.
Print Assumptions C50_never_returns_refuted.
Print Assumptions C50_keeps_the_mutex_refuted.
Print Assumptions C50_no_deadlock_partial.
Print Assumptions C51_no_load_after_stop.
Print Assumptions C51_stop_bounded_partial.
Print Assumptions C51_stop_returns_partial.
Print Assumptions C51_stop_hangs_refuted.
Print Assumptions C51_hangs_for_ever_refuted.
Print Assumptions C51_stop_first_refuted.
Print Assumptions C64_calls_partial.
Print Assumptions C64_histories_partial.
Print Assumptions C64_new.
Print Assumptions C64_loaded_model.
Print Assumptions C64_queries.
Print Assumptions C64_role_queries.
Print Assumptions C64_roles_before_links_refuted.
Print Assumptions C64_batch_refuted.
Print Assumptions C64_no_adapter_refuted.
Print Assumptions C64_filtered_save_refuted.
Print Assumptions C64_load_refuted.
Print Assumptions C64_field_name_refuted.
Print Assumptions C69_domain_decision.
Print Assumptions C69_other_domains_do_not_matter.
Print Assumptions C70_acl_decision_partial.
Print Assumptions C70_blank_request_refuted.
Print Assumptions C70_nul_rule_refuted.
Print Assumptions C71_deny_decision.
Print Assumptions C71_not_deny_decision.
Print Assumptions C71_priority_decision.
Print Assumptions C72_resource_decision.
Print Assumptions C72_separate_names.
Print Assumptions C72_separate_decision.
Print Assumptions C72_shared_names_refuted.
Print Assumptions C73_give_role.
Print Assumptions C73_take_role.
Print Assumptions C73_take_all_roles.
Print Assumptions C73_give_roles.
Print Assumptions C73_has_role.
Print Assumptions C73_roles_are_listed_rules.
Print Assumptions C73_empty_user_refuted.
Print Assumptions C74_asking.
Print Assumptions C74_listing.
Print Assumptions C74_filtering.
Print Assumptions C74_adding.
Print Assumptions C74_adding_many.
Print Assumptions C74_removing.
Print Assumptions C74_removing_filtered.
Print Assumptions C74_updating.
Print Assumptions C74_updating_many.
Print Assumptions C75_regex_partial.
Print Assumptions C75_other_texts.
Print Assumptions C75_one_meaning.
Print Assumptions C75_plain_text.
Print Assumptions C75_choice.
Print Assumptions C76_names.
Print Assumptions C76_no_other_names.
Print Assumptions C76_keymatch_decision.
Print Assumptions C76_keymatch2_decision.
Print Assumptions C76_ipmatch_decision_partial.
Print Assumptions C76_ip_empty_policy_refuted.
Print Assumptions C76_ip_plain_rule_refuted.
Print Assumptions C76_rbac_pattern_decision_partial.
Print Assumptions C77_same_fields_decision_partial.
Print Assumptions C77_root_decision.
Print Assumptions C77_object_roles_decision_partial.
Print Assumptions C78_loaded_partial.
Print Assumptions C78_decision_partial.
Print Assumptions C78_rbac_files_partial.
Print Assumptions C78_deny_files_partial.
Print Assumptions C78_not_deny_files_partial.
Print Assumptions C78_priority_files_partial.
Print Assumptions C78_domain_files_partial.
Print Assumptions C78_resource_files_partial.
Print Assumptions C78_basic_files_partial.
Print Assumptions C78_no_policy.
Print Assumptions C78_bad_model.
Print Assumptions C78_reload_partial.
Print Assumptions C78_two_lines_refuted.
Print Assumptions C79_last_set.
Print Assumptions C79_objects.
Print Assumptions C79_accepts.
Print Assumptions C79_typed.
Print Assumptions C79_int.
Print Assumptions C79_empty_section_refuted.
Print Assumptions C79_third_part_refuted.
Print Assumptions C80_set.
Print Assumptions C80_stays.
Print Assumptions C80_enforcing_off.
Print Assumptions C80_notify_off.
Print Assumptions C80_build.
Print Assumptions C80_set_model_refuted.
Print Assumptions C80_build_off_refuted.
Print Assumptions C81_has_link.
Print Assumptions C81_questions_leave_no_trace.
Print Assumptions C81_roles_of_link_names.
Print Assumptions C81_roles_of_concrete_names.
Print Assumptions C81_users_depend_on_questions_refuted.
Print Assumptions C82_decision.
Print Assumptions C82_resource_decision.
Print Assumptions C83_default.
Print Assumptions C83_decision.
Print Assumptions C83_stays_ready.
Print Assumptions C83_comes_to_end.
Print Assumptions C83_throws.
Print Assumptions C83_no_rules.
Print Assumptions C83_index_unset_refuted.
Print Assumptions C84_role_manager.
Print Assumptions C84_before_first_request.
Print Assumptions C84_matching_manager.
Print Assumptions C84_old_manager_is_asked_refuted.
Print Assumptions C85_enable_log_changes_nothing.
Print Assumptions C85_same_answers.
Print Assumptions C85_enable_log_refuted.
Print Assumptions C85_logging_refuted.
Print Assumptions C85_print_roles.
Print Assumptions C86_address.
Print Assumptions C86_one_text.
Print Assumptions C86_network.
Print Assumptions C86_mask_partial.
Print Assumptions C86_mask_refuted.
Print Assumptions C86_network_address_refuted.
Print Assumptions C86_ipv6_refuted.
Print Assumptions C87_same_answer.
Print Assumptions C87_any_order.
Print Assumptions C87_completed.
Print Assumptions C88_copies_agree.
Print Assumptions C88_copies_decide.
Print Assumptions C88_own_switches.
Print Assumptions C88_own_model.
Print Assumptions C88_own_parts.
Print Assumptions C88_shared_parts.
Print Assumptions C88_on_model.
Print Assumptions C88_independent_refuted.
Print Assumptions C88_shared_model_refuted.
Print Assumptions C88_shared_model_loses_roles_refuted.
Print Assumptions C89_reported.
Print Assumptions C89_outcome.
Print Assumptions C89_rules_anyway.
Print Assumptions C89_saving.
Print Assumptions C89_unwritable.
Print Assumptions C89_loading.
Print Assumptions C89_refused_rule_decides_refuted.
Print Assumptions C89_refused_role_refuted.
Print Assumptions C90_load_gets_last_save.
Print Assumptions C90_loaders_agree.
Print Assumptions C90_unsaved_unseen.
Print Assumptions C90_lost_update_refuted.
Print Assumptions C91_alone.
Print Assumptions C91_cache_guarded.
Print Assumptions C91_warm.
Print Assumptions C91_answers.
Print Assumptions C91_no_deadlock.
Print Assumptions C91_cold_race_refuted.
Print Assumptions C91_invalidate_race_refuted.
Print Assumptions C91_stale_store_refuted.
Print Assumptions C91_forgotten_refuted.
Print Assumptions C92_equal.
Print Assumptions C92_equivalence.
Print Assumptions C92_v4.
Print Assumptions C92_v6_partial.
Print Assumptions C92_written_refuted.
Print Assumptions C92_mapped_refuted.
Print Assumptions C93_in_step_partial.
Print Assumptions C93_same_rules_partial.
Print Assumptions C93_joins.
Print Assumptions C93_update_refuted.
Print Assumptions C93_update_lost_refuted.
Print Assumptions C93_remove_many_refuted.
Print Assumptions C93_file_refuted.
Print Assumptions C94_default_manager.
Print Assumptions C94_informed_partial.
Print Assumptions C94_add_heard.
Print Assumptions C94_refused.
Print Assumptions C94_strict_refuted.
Print Assumptions C94_remove_told.
Print Assumptions C94_remove_refuted.
Print Assumptions C94_update_refuted.
Print Assumptions C95_dutiful.
Print Assumptions C95_in_force.
Print Assumptions C95_history.
Print Assumptions C95_rules_anyway.
Print Assumptions C95_added_role.
Print Assumptions C95_revoked_role_stays_refuted.
Print Assumptions C95_delete_user_refuted.
Print Assumptions C95_access_stays_refuted.
Print Assumptions C96_never_called_back_refuted.
Print Assumptions C96_wired_by_hand.
Print Assumptions C96_extended_refuted.
Print Assumptions C96_synced_refuted.
Print Assumptions C96_synced_threads_refuted.
Print Assumptions C97_answers_partial.
Print Assumptions C97_alike_partial.
Print Assumptions C97_rbac_partial.
Print Assumptions C97_joins.
Print Assumptions C97_update_refuted.
Print Assumptions C97_priority_refuted.
Print Assumptions C98_one_at_a_time.
Print Assumptions C98_alone.
Print Assumptions C98_answers.
Print Assumptions C98_kinds.
Print Assumptions C98_race_refuted.
Print Assumptions C98_other_manager_refuted.
Print Assumptions C98_missing_refuted.
Print Assumptions C98_other_roles_refuted.
Print Assumptions C98_fails_refuted.
Print Assumptions C99_positional.
Print Assumptions C99_cache_bound.
Print Assumptions C99_objects_refuted.
Print Assumptions C99_no_bound_refuted.
Print Assumptions C99_names_refuted.
Print Assumptions C99_cache_refuted.
Print Assumptions C100_add.
Print Assumptions C100_remove.
Print Assumptions C100_takes_effect.
Print Assumptions C100_first_rule_refuted.
Print Assumptions C100_anagram_refuted.
Print Assumptions C101_copy_answers.
Print Assumptions C101_moved_from.
Print Assumptions C101_own_cache.
Print Assumptions C101_stale_refuted.
Print Assumptions C101_unaided_agree.
Print Assumptions C102_default.
Print Assumptions C102_decides.
Print Assumptions C102_throws.
Print Assumptions C102_throws_early.
Print Assumptions C102_no_rules.
Print Assumptions C102_request.
Print Assumptions C102_request_map.
Print Assumptions C102_off.
Print Assumptions C102_field_missing.
Print Assumptions C102_never_cleaned.
Print Assumptions C103_default.
Print Assumptions C103_default_queries.
Print Assumptions C103_decides.
Print Assumptions C103_throws.
Print Assumptions C103_queries.
Print Assumptions C103_unlinked_ub.
Print Assumptions C103_after_build.
Print Assumptions C103_implicit_roles.
Print Assumptions C103_implicit_permissions.
Print Assumptions C103_implicit_users.
Print Assumptions C103_endless_refuted.
Print Assumptions C103_half_refuted.
Print Assumptions C103_decided_refuted.
Print Assumptions C104_chosen.
Print Assumptions C104_roles.
Print Assumptions C104_determined.
Print Assumptions C104_conjunction.
Print Assumptions C104_lengths.
Print Assumptions C104_every_field_refuted.
Print Assumptions C105_same_rules.
Print Assumptions C105_nothing_told.
Print Assumptions C105_silent_call.
Print Assumptions C105_decision.
Print Assumptions C105_roles.
Print Assumptions C105_rebuilt.
Print Assumptions C105_grouping_refuted.
Print Assumptions C105_remove_many_refuted.
Print Assumptions C106_previous.
Print Assumptions C106_harmless.
Print Assumptions C106_first_throws.
Print Assumptions C106_sticks.
Print Assumptions C106_indexed_throws.
Print Assumptions C106_decision_refuted.
Print Assumptions C107_after_the_call.
Print Assumptions C107_in_step_partial.
Print Assumptions C107_same_change_partial.
Print Assumptions C107_file_undone_refuted.
Print Assumptions C107_file_no_change_refuted.
Print Assumptions C107_update_undone_refuted.
Print Assumptions C107_role_without_rule_refuted.
Print Assumptions C108_refused_partial.
Print Assumptions C108_rule_stays_refuted.
Print Assumptions C108_stuck_refuted.
Print Assumptions C108_way_back.
Print Assumptions C108_connected.
Print Assumptions C108_others_lose_roles_refuted.
Print Assumptions C108_batch_refuted.
Print Assumptions C108_update_refuted.
Print Assumptions C109_same_partial.
Print Assumptions C109_enforce_partial.
Print Assumptions C109_library.
Print Assumptions C109_rbac.
Print Assumptions C109_any_case.
Print Assumptions C109_lost_value_refuted.
Print Assumptions C109_wrongly_allowed_refuted.
Print Assumptions C109_twins_index_refuted.
Print Assumptions C109_poisoned_refuted.
Print Assumptions C109_first_refuted.
Print Assumptions C110_rbac.
Print Assumptions C110_domains_partial.
Print Assumptions C110_deny.
Print Assumptions C110_acl_partial.
Print Assumptions C110_colons_refuted.
Print Assumptions C110_empty_name_refuted.
Print Assumptions C110_nul_refuted.
Print Assumptions C111_reads_partial.
Print Assumptions C111_layout_partial.
Print Assumptions C111_notation_partial.
Print Assumptions C111_quoted_operator_refuted.
Print Assumptions C111_tight_refuted.
Print Assumptions C111_characters_refuted.
Print Assumptions C112_stored_decides.
Print Assumptions C112_any_order.
Print Assumptions C112_restart_partial.
Print Assumptions C112_life_partial.
Print Assumptions C112_rbac_life_partial.
Print Assumptions C112_effect_life_partial.
Print Assumptions C112_domain_life_partial.
Print Assumptions C112_clear_refuted.
Print Assumptions C112_comma_refuted.
Print Assumptions C112_depth_refuted.
Print Assumptions C112_unsaved_refuted.
Print Assumptions C113_as_table_partial.
Print Assumptions C113_table_decides.
Print Assumptions C113_same_answers_partial.
Print Assumptions C113_decide_alike_partial.
Print Assumptions C113_restart_partial.
Print Assumptions C113_anagram_refuted.
Print Assumptions C114_decision.
Print Assumptions C114_domain_decision.
Print Assumptions C114_late_roles_ignored.
Print Assumptions C114_role_after_request_refuted.
Print Assumptions C114_load_after_request_refuted.
