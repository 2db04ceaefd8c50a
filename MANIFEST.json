{
 "claims": [
  {
   "property": "C01",
   "status": "proved",
   "theorems": [
    "C01_binary64",
    "C01_refused",
    "C01_nothing",
    "C01_number_of_collections"
   ],
   "note": ""
  },
  {
   "property": "C02",
   "status": "proved",
   "theorems": [
    "C02_divisors_binary64",
    "C02_negative",
    "C02_is_prime"
   ],
   "note": ""
  },
  {
   "property": "C03",
   "status": "proved",
   "theorems": [
    "C03_binary64",
    "C03_next_number_of_collections"
   ],
   "note": ""
  },
  {
   "property": "C04",
   "status": "proved",
   "theorems": [
    "C04_route",
    "C04_keyed_calls_touch_one_collection",
    "C04_update_touches_routed_collections_only",
    "C04_reads_look_at_one_collection",
    "C04_unencodable_id"
   ],
   "note": ""
  },
  {
   "property": "C05",
   "status": "proved",
   "theorems": [
    "C05_prime_reaches_every_collection",
    "C05_odd_reaches_every_collection",
    "C05_256_leaves_collections_unreachable"
   ],
   "note": "refutation half: with 256 collections indices 192..255 are unreachable"
  },
  {
   "property": "C06",
   "status": "proved",
   "theorems": [
    "C06_collection_is_a_map",
    "C06_collection_reads_the_map",
    "C06_histories"
   ],
   "note": ""
  },
  {
   "property": "C07",
   "status": "proved",
   "theorems": [
    "C07_strict_capacity",
    "C07_refusal_changes_nothing",
    "C07_setdefault_breaks_capacity_refuted"
   ],
   "note": "setdefault breaking the bound is proved as a refutation"
  },
  {
   "property": "C08",
   "status": "proved",
   "theorems": [
    "C08_full_strict_insert"
   ],
   "note": ""
  },
  {
   "property": "C09",
   "status": "proved",
   "theorems": [
    "C09_range_iteration"
   ],
   "note": ""
  },
  {
   "property": "C10",
   "status": "proved",
   "theorems": [
    "C10_min_max_key"
   ],
   "note": ""
  },
  {
   "property": "C11",
   "status": "proved",
   "theorems": [
    "C11_pop"
   ],
   "note": ""
  },
  {
   "property": "C12",
   "status": "proved",
   "theorems": [
    "C12_usage_binary64",
    "C12_percent_binary64",
    "C12_status_thresholds",
    "C12_status_monotone"
   ],
   "note": ""
  },
  {
   "property": "C13",
   "status": "proved",
   "theorems": [
    "C13_group_is_a_map",
    "C13_group_reads_the_map",
    "C13_group_lists_each_key_once"
   ],
   "note": ""
  },
  {
   "property": "C14",
   "status": "proved",
   "theorems": [
    "C14_strict_group_capacity",
    "C14_full_group_refuses_new_key"
   ],
   "note": ""
  },
  {
   "property": "C15",
   "status": "proved",
   "theorems": [
    "C15_strict_insert_iff_room",
    "C15_free_space_yet_refused_refuted"
   ],
   "note": ""
  },
  {
   "property": "C16",
   "status": "proved",
   "theorems": [
    "C16_update_applies_all",
    "C16_group_capacity_error_changes_nothing",
    "C16_collection_overflow_applies_a_prefix",
    "C16_all_or_nothing_refuted"
   ],
   "note": ""
  },
  {
   "property": "C17",
   "status": "proved",
   "theorems": [
    "C17_iterkeys",
    "C17_iteritems",
    "C17_empty_id_hides_everything_refuted"
   ],
   "note": "exact rule: complete ordered listing unless the '' id is in bounds and every in-bounds id routes to collection 0"
  },
  {
   "property": "C18",
   "status": "proved",
   "theorems": [
    "C18_itervalues",
    "C18_falsy_values_are_lost_refuted",
    "C18_unordered_objects_raise_refuted"
   ],
   "note": ""
  },
  {
   "property": "C19",
   "status": "proved",
   "theorems": [
    "C19_popitem_least",
    "C19_min_max_key",
    "C19_nonempty_group_raises_refuted"
   ],
   "note": ""
  },
  {
   "property": "C20",
   "status": "proved",
   "theorems": [
    "C20_byvalue",
    "C20_incomparable"
   ],
   "note": ""
  },
  {
   "property": "C21",
   "status": "proved",
   "theorems": [
    "C21_group_new",
    "C21_group_new_rejects",
    "C21_group_new_custom",
    "C21_group_new_nonint_key",
    "C21_group_new_ignores_strict"
   ],
   "note": ""
  },
  {
   "property": "C22",
   "status": "proved",
   "theorems": [
    "C22_set_strict",
    "C22_strict_reads_all",
    "C22_status_is_the_maximum",
    "C22_sizes_are_sums"
   ],
   "note": ""
  },
  {
   "property": "C23",
   "status": "proved",
   "theorems": [
    "C23_new",
    "C23_capacity_zero"
   ],
   "note": ""
  },
  {
   "property": "C24",
   "status": "proved",
   "theorems": [
    "C24_read_your_writes",
    "C24_primary_not_first_refuted"
   ],
   "note": "containers whose primary is first in the group list, as Container.new/resize produce; the other case is a refutation"
  },
  {
   "property": "C25",
   "status": "proved",
   "theorems": [
    "C25_read_precedence"
   ],
   "note": ""
  },
  {
   "property": "C26",
   "status": "proved",
   "theorems": [
    "C26_write_outcome",
    "C26_full_strict_collection_refuses_even_overwriting"
   ],
   "note": ""
  },
  {
   "property": "C27",
   "status": "proved",
   "theorems": [
    "C27_delete",
    "C27_delete_missing"
   ],
   "note": ""
  },
  {
   "property": "C28",
   "status": "proved",
   "theorems": [
    "C28_again",
    "C28_single_group",
    "C28_condense_preserves_reads",
    "C28_falsy_value_hides_after_condense_refuted"
   ],
   "note": "what changes for falsy first values is proved as a refutation"
  },
  {
   "property": "C29",
   "status": "proved",
   "theorems": [
    "C29_again",
    "C29_then_transfer",
    "C29_condense_copies"
   ],
   "note": ""
  },
  {
   "property": "C30",
   "status": "proved",
   "theorems": [
    "C30_refused_condense_loses_one_object",
    "C30_copying_condense_never_loses"
   ],
   "note": ""
  },
  {
   "property": "C31",
   "status": "proved",
   "theorems": [
    "C31_condense_is_crash_safe",
    "C31_one_commit_per_object",
    "C31_single_use_transaction_stops_after_one"
   ],
   "note": "commit behaviour is an oracle (commits / does nothing / raises) because the transaction package is not in /repo; a single-use transaction object makes condense stop after the first object, also proved"
  },
  {
   "property": "C32",
   "status": "proved",
   "theorems": [
    "C32_resize"
   ],
   "note": ""
  },
  {
   "property": "C33",
   "status": "proved",
   "theorems": [
    "C33_resize_drops_strictness"
   ],
   "note": ""
  },
  {
   "property": "C34",
   "status": "proved",
   "theorems": [
    "C34_resize_in_a_transaction_drops_secondaries",
    "C34_resize_in_a_transaction_without_transfer"
   ],
   "note": "committed state after resize; working state also characterised"
  },
  {
   "property": "C35",
   "status": "proved",
   "theorems": [
    "C35_autocommit_is_atomic",
    "C35_raises_iff_the_call_does"
   ],
   "note": ""
  },
  {
   "property": "C36",
   "status": "proved",
   "theorems": [
    "C36_block_commits_together",
    "C36_exception_rolls_back",
    "C36_failed_commit_rolls_back",
    "C36_crash_inside_loses_exactly_the_block"
   ],
   "note": ""
  },
  {
   "property": "C37",
   "status": "proved",
   "theorems": [
    "C37_block_restores_autocommit",
    "C37_setter_takes_only_booleans"
   ],
   "note": ""
  },
  {
   "property": "C38",
   "status": "proved",
   "theorems": [
    "C38_inner_block_discards_pending_work",
    "C38_rest_runs_with_autocommit",
    "C38_committed_states_stay"
   ],
   "note": ""
  },
  {
   "property": "C39",
   "status": "proved",
   "theorems": [
    "C39_constructor_flag_is_ignored",
    "C39_assignment_disables",
    "C39_no_container"
   ],
   "note": ""
  },
  {
   "property": "C40",
   "status": "proved",
   "theorems": [
    "C40_create_refuses_existing",
    "C40_create_stores_fresh",
    "C40_create_accepts_fresh",
    "C40_first_create_wins"
   ],
   "note": ""
  },
  {
   "property": "C41",
   "status": "proved",
   "theorems": [
    "C41_update"
   ],
   "note": ""
  },
  {
   "property": "C42",
   "status": "proved",
   "theorems": [
    "C42_sessions_behave_like_a_map"
   ],
   "note": ""
  },
  {
   "property": "C43",
   "status": "proved",
   "theorems": [
    "C43_index_by_id",
    "C43_index_by_list",
    "C43_other_index"
   ],
   "note": ""
  },
  {
   "property": "C44",
   "status": "proved",
   "theorems": [
    "C44_behaves_like_a_map",
    "C44_unencodable_id"
   ],
   "note": ""
  },
  {
   "property": "C45",
   "status": "proved",
   "theorems": [
    "C45_refuses_to_shrink",
    "C45_does_not_rehash"
   ],
   "note": ""
  },
  {
   "property": "C46",
   "status": "proved",
   "theorems": [
    "C46_expands_and_commits",
    "C46_refused_and_rolled_back"
   ],
   "note": ""
  },
  {
   "property": "C47",
   "status": "proved",
   "theorems": [
    "C47_first_hit",
    "C47_multiple_always_fails",
    "C47_timeout_always_fails",
    "C47_failing_read"
   ],
   "note": ""
  },
  {
   "property": "C48",
   "status": "proved",
   "theorems": [
    "C48_schedule_independent"
   ],
   "note": ""
  },
  {
   "property": "C49",
   "status": "proved",
   "theorems": [
    "C49_existing_path_is_refused",
    "C49_fresh_path_is_created",
    "C49_nothing_else_changes",
    "C49_below_a_file",
    "C49_no_parent",
    "C49_file_and_slash"
   ],
   "note": ""
  },
  {
   "property": "C50",
   "status": "proved",
   "theorems": [
    "C50_touches_nothing_else",
    "C50_exactly",
    "C50_trailing_slash_deletes_every_file",
    "C50_remove_all",
    "C50_not_a_directory",
    "C50_nothing_there",
    "C50_init_is_a_directory"
   ],
   "note": ""
  },
  {
   "property": "C51",
   "status": "proved",
   "theorems": [
    "C51_is_path_dbmodule_never_raises",
    "C51_system_exit_gets_through_refuted",
    "C51_discovery",
    "C51_explicit_modules_win",
    "C51_no_discovery"
   ],
   "note": ""
  },
  {
   "property": "C52",
   "status": "proved",
   "theorems": [
    "C52_registry_is_a_map"
   ],
   "note": ""
  },
  {
   "property": "C53",
   "status": "proved",
   "theorems": [
    "C53_read",
    "C53_assign",
    "C53_delete"
   ],
   "note": ""
  },
  {
   "property": "C54",
   "status": "proved",
   "theorems": [
    "C54_copy_on_decorate"
   ],
   "note": ""
  },
  {
   "property": "C55",
   "status": "proved",
   "theorems": [
    "C55_contexts_nest",
    "C55_active_flag",
    "C55_active_flag_refuted"
   ],
   "note": ""
  },
  {
   "property": "C56",
   "status": "proved",
   "theorems": [
    "C56_exactly_the_selected",
    "C56_values_of_selected",
    "C56_context_restored",
    "C56_succeeds",
    "C56_names"
   ],
   "note": ""
  },
  {
   "property": "C57",
   "status": "proved",
   "theorems": [
    "C57_output_is_plain",
    "C57_plain_is_unchanged",
    "C57_booleans_become_strings"
   ],
   "note": ""
  },
  {
   "property": "C58",
   "status": "proved",
   "theorems": [
    "C58_nested_objects",
    "C58_context_lost_refuted"
   ],
   "note": ""
  },
  {
   "property": "C59",
   "status": "proved",
   "theorems": [
    "C59_accepts_exactly_the_allowed",
    "C59_lists_stored_as_they_are",
    "C59_none_accepted",
    "C59_tuple_stored_as_list_refuted",
    "C59_returning_validators_ignored",
    "C59_nonnegative"
   ],
   "note": ""
  },
  {
   "property": "C60",
   "status": "proved",
   "theorems": [
    "C60_denotes",
    "C60_unambiguous",
    "C60_distinct",
    "C60_negative",
    "C60_zero",
    "C60_micros_dropped"
   ],
   "note": ""
  },
  {
   "property": "C61",
   "status": "proved",
   "theorems": [
    "C61_round_trip",
    "C61_drops",
    "C61_instants_refuted",
    "C61_small_year"
   ],
   "note": ""
  },
  {
   "property": "C62",
   "status": "proved",
   "theorems": [
    "C62_parses",
    "C62_validation",
    "C62_gap_text",
    "C62_gap_date"
   ],
   "note": ""
  },
  {
   "property": "C63",
   "status": "proved",
   "theorems": [
    "C63_decision",
    "C63_cleaned",
    "C63_otherwise",
    "C63_later_characters"
   ],
   "note": ""
  },
  {
   "property": "C64",
   "status": "proved",
   "theorems": [
    "C64_requests",
    "C64_secure_https",
    "C64_errors",
    "C64_exit_passes"
   ],
   "note": ""
  },
  {
   "property": "C65",
   "status": "proved",
   "theorems": [
    "C65_history",
    "C65_at_most_once",
    "C65_failures_not_cached",
    "C65_shared_cache_refuted"
   ],
   "note": ""
  },
  {
   "property": "C66",
   "status": "proved",
   "theorems": [
    "C66_clone_classes",
    "C66_succeeds",
    "C66_may_fail_refuted"
   ],
   "note": "the failure of a valid hierarchy is proved as a refutation"
  },
  {
   "property": "C67",
   "status": "proved",
   "theorems": [
    "C67_set_once",
    "C67_constructor",
    "C67_empty_refuted",
    "C67_lookup",
    "C67_lookups"
   ],
   "note": "the empty string being replaceable is a refutation; lookup for classes with package-first resolution orders and unrelated bases"
  },
  {
   "property": "C68",
   "status": "proved",
   "theorems": [
    "C68_properties",
    "C68_definition",
    "C68_outcome",
    "C68_unknown_name"
   ],
   "note": "for worlds in which no property has one of five reserved attribute names; the installed definition and the outcome for property classes unrelated to one another"
  },
  {
   "property": "C69",
   "status": "proved",
   "theorems": [
    "C69_packages",
    "C69_attribute_error",
    "C69_engine_packages",
    "C69_engine_sequence",
    "C69_engine_combine"
   ],
   "note": ""
  },
  {
   "property": "C70",
   "status": "proved",
   "theorems": [
    "C70_register",
    "C70_never_overwritten",
    "C70_engine",
    "C70_type_refuted"
   ],
   "note": "registry entries after mapping 'type' are a refutation"
  },
  {
   "property": "C71",
   "status": "proved",
   "theorems": [
    "C71_form",
    "C71_dict",
    "C71_total"
   ],
   "note": "expansion (pyld) and the constructors are arbitrary parameters with an outside state"
  },
  {
   "property": "C72",
   "status": "proved",
   "theorems": [
    "C72_constructor_call",
    "C72_unknown_keys_ignored",
    "C72_unregistered",
    "C72_not_a_dict",
    "C72_expansion_fails",
    "C72_what_is_expanded"
   ],
   "note": "expansion (pyld) and the constructors are arbitrary parameters with an outside state"
  },
  {
   "property": "C73",
   "status": "proved",
   "theorems": [
    "C73_link_valued",
    "C73_strings",
    "C73_other_strings",
    "C73_dicts",
    "C73_other_dicts",
    "C73_dict_bad_href",
    "C73_sequences",
    "C73_sequence_fails",
    "C73_same_length",
    "C73_everything_else",
    "C73_setters"
   ],
   "note": "validate_email is an arbitrary parameter"
  },
  {
   "property": "C74",
   "status": "proved",
   "theorems": [
    "C74_json_times",
    "C74_json_duration",
    "C74_data_times",
    "C74_nested_contexts",
    "C74_names",
    "C74_no_requests",
    "C74_json_reads",
    "C74_json_link",
    "C74_json_link_list",
    "C74_data_link",
    "C74_one_request",
    "C74_no_request_otherwise",
    "C74_serialises"
   ],
   "note": "values are trees without identity; the request and the engine's from_json are arbitrary parameters"
  },
  {
   "property": "C75",
   "status": "proved",
   "theorems": [
    "C75_held",
    "C75_stored",
    "C75_lost",
    "C75_lost_names",
    "C75_type",
    "C75_start_index",
    "C75_succeeds",
    "C75_fails",
    "C75_plain_classes",
    "C75_assignment"
   ],
   "note": "classes of models.py also covered (C75_plain_classes)"
  },
  {
   "property": "C76",
   "status": "proved",
   "theorems": [
    "C76_construction",
    "C76_package",
    "C76_plain_classes",
    "C76_not_updated",
    "C76_wrong_count_refuted"
   ],
   "note": "the expected count being wrong is also given as a refutation"
  },
  {
   "property": "C77",
   "status": "proved",
   "theorems": [
    "C77_failed_commit_leaves_autocommit_off",
    "C77_then_no_call_has_an_effect",
    "C77_then_every_mutator_raises"
   ],
   "note": ""
  },
  {
   "property": "C78",
   "status": "proved",
   "theorems": [
    "C78_generated_module_is_no_module",
    "C78_never_discovered",
    "C78_create_always_raises"
   ],
   "note": ""
  },
  {
   "property": "C79",
   "status": "proved",
   "theorems": [
    "C79_destroy_keeps_the_entry",
    "C79_overwrite_is_refused"
   ],
   "note": ""
  },
  {
   "property": "C80",
   "status": "proved",
   "theorems": [
    "C80_same_names",
    "C80_marks",
    "C80_properties_wrapped",
    "C80_methods",
    "C80_single_inheritance",
    "C80_diamond_refuted",
    "C80_outside_refuted"
   ],
   "note": "exact resolution for non-properties and for single inheritance; the two situations where it differs are refutations"
  },
  {
   "property": "C81",
   "status": "proved",
   "theorems": [
    "C81_originals_unchanged",
    "C81_reachable",
    "C81_package"
   ],
   "note": ""
  },
  {
   "property": "C82",
   "status": "proved",
   "theorems": [
    "C82_one_text",
    "C82_many_texts",
    "C82_anything_else"
   ],
   "note": ""
  },
  {
   "property": "C83",
   "status": "proved",
   "theorems": [
    "C83_taken",
    "C83_refused",
    "C83_constructors"
   ],
   "note": ""
  },
  {
   "property": "C84",
   "status": "proved",
   "theorems": [
    "C84_create_replaces_the_container",
    "C84_earlier_objects_gone",
    "C84_new_database_is_an_empty_map",
    "C84_failed_commit",
    "C84_capacity_zero",
    "C84_new_with_databases",
    "C84_new_fails_with_create"
   ],
   "note": "ZODB's behaviour (a storage holds the last committed root; a commit stores everything or raises and stores nothing) is assumed, see DESIGN.md"
  },
  {
   "property": "C85",
   "status": "proved",
   "theorems": [
    "C85_existing_container_unchanged",
    "C85_foreign_database_refused",
    "C85_empty_storage_gets_a_container",
    "C85_failed_first_commit_is_final",
    "C85_databases_always_fails",
    "C85_client_never_creates"
   ],
   "note": "ZODB.DB's constructor is modelled from its documentation, see DESIGN.md"
  },
  {
   "property": "C86",
   "status": "proved",
   "theorems": [
    "C86_closed_iff_innermost",
    "C86_block",
    "C86_every_connection_closed_refuted"
   ],
   "note": "closing is assumed to succeed (ZODB refuses to close a connection with uncommitted changes)"
  },
  {
   "property": "C87",
   "status": "proved",
   "theorems": [
    "C87_round_trip",
    "C87_closed_bool",
    "C87_closed_time",
    "C87_deleted",
    "C87_duration",
    "C87_links",
    "C87_object"
   ],
   "note": "json.loads of json.dumps is assumed to give the data back; pyld's expansion is assumed to map the name of a class to the type it is registered under (hypothesis understands); both are instantiated in the examples"
  },
  {
   "property": "C88",
   "status": "proved",
   "theorems": [
    "C88_document",
    "C88_answered"
   ],
   "note": "requests, response.json() and parse_link_header are oracles (the answer to the n-th request); the JSON content-type test is a parameter; the alternate document is never fetched"
  },
  {
   "property": "C89",
   "status": "proved",
   "theorems": [
    "C89_one_text",
    "C89_many_texts",
    "C89_name",
    "C89_counts",
    "C89_radius",
    "C89_numbers",
    "C89_duration",
    "C89_deleted",
    "C89_id",
    "C89_relationship",
    "C89_describes",
    "C89_former_type",
    "C89_objects",
    "C89_pages",
    "C89_replies",
    "C89_part_of",
    "C89_url",
    "C89_closed",
    "C89_shadowed",
    "C89_tag",
    "C89_subject",
    "C89_times",
    "C89_context",
    "C89_all"
   ],
   "note": "values are those of Vocab.v (trees); number rendering, email validation and link making are oracles"
  },
  {
   "property": "C90",
   "status": "proved",
   "theorems": [
    "C90_unchanged",
    "C90_converts",
    "C90_again",
    "C90_lists",
    "C90_like_constructed",
    "C90_raises_once_refuted",
    "C90_same_value"
   ],
   "note": "single-owner trees: an object held in two places is not modelled; conversions inside with-statement contexts are not modelled"
  },
  {
   "property": "C91",
   "status": "proved",
   "theorems": [
    "C91_namespaces",
    "C91_itself",
    "C91_at_first",
    "C91_expanded_before",
    "C91_expanded_after",
    "C91_resolution_order",
    "C91_own_namespace_refuted",
    "C91_requests_refuted"
   ],
   "note": "the text of a property object (the namespace of the package's Object and Link) is a parameter, assumed to be no class name"
  },
  {
   "property": "C92",
   "status": "proved",
   "theorems": [
    "C92_size",
    "C92_used",
    "C92_write",
    "C92_delete",
    "C92_condense",
    "C92_status",
    "C92_limits",
    "C92_limits_resize",
    "C92_usage",
    "C92_status_overstates_refuted",
    "C92_usage_binary64"
   ],
   "note": "reported size, used, status; status thresholds for sizes and maxima up to 2^40; C92_status_overstates_refuted shows the status may exceed the overall usage"
  },
  {
   "property": "C93",
   "status": "proved",
   "theorems": [
    "C93_assignment",
    "C93_only_booleans",
    "C93_lost_by_the_next_call",
    "C93_lost_by_the_next_block",
    "C93_lost_by_reopening",
    "C93_kept_by_a_block"
   ],
   "note": "the assignment outside a block has no lasting effect (a finding); inside a block it is committed"
  },
  {
   "property": "C94",
   "status": "proved",
   "theorems": [
    "C94_default_manager_refuses",
    "C94_default_manager_never_writes",
    "C94_reads",
    "C94_explicit_manager_session",
    "C94_create_overwrites",
    "C94_setup",
    "C94_managed_setup_fails",
    "C94_before_setup",
    "C94_failed_commit",
    "C94_with_block_recovers"
   ],
   "note": "ids are strings; transaction.ThreadTransactionManager is assumed to have no attribute autocommit (it has none in the released package)"
  },
  {
   "property": "C95",
   "status": "proved",
   "theorems": [
    "C95_text_round_trip",
    "C95_formats_agree",
    "C95_unambiguous",
    "C95_ascii",
    "C95_writes",
    "C95_json_of_data",
    "C95_surrogates_refuted",
    "C95_object_round_trip"
   ],
   "note": "CPython 3.12's json modelled (no recursion or digit limits); float_repr, i.e. repr(float(text)), is a parameter"
  },
  {
   "property": "C96",
   "status": "proved",
   "theorems": [
    "C96_between",
    "C96_full",
    "C96_each_collection",
    "C96_largest_collection",
    "C96_limits_constant",
    "C96_no_collections"
   ],
   "note": "positive limits; binary64 without overflow (Float53.v)"
  },
  {
   "property": "C97",
   "status": "proved",
   "theorems": [
    "C97_iterate",
    "C97_known",
    "C97_one",
    "C97_unknown",
    "C97_iterator_refuted"
   ],
   "note": "the set-like order of __properties__ is an input; the code between two steps of an iteration is not modelled"
  },
  {
   "property": "C98",
   "status": "proved",
   "theorems": [
    "C98_complete",
    "C98_nearest",
    "C98_sound",
    "C98_refreshed",
    "C98_subclass_refuted",
    "C98_order_refuted"
   ],
   "note": "only this method binds __properties__; a property is never replaced by something else"
  },
  {
   "property": "C99",
   "status": "proved",
   "theorems": [
    "C99_link",
    "C99_visible",
    "C99_unlink",
    "C99_link_unlink",
    "C99_listing_refuted"
   ],
   "note": ""
  },
  {
   "property": "C100",
   "status": "proved",
   "theorems": [
    "C100_attributes",
    "C100_construction"
   ],
   "note": "a class named like another attribute the engine uses (package, logger, a method) would replace it; not modelled"
  },
  {
   "property": "C101",
   "status": "proved",
   "theorems": [
    "C101_opens",
    "C101_all",
    "C101_override_refuted"
   ],
   "note": "databases are ContainerDbs or have an open with the same signature; opening itself is a parameter"
  },
  {
   "property": "C102",
   "status": "proved",
   "theorems": [
    "C102_items",
    "C102_other_refuted",
    "C102_reads"
   ],
   "note": "reading the property is a parameter; what the loop's body changes between two steps is not modelled"
  },
  {
   "property": "C103",
   "status": "proved",
   "theorems": [
    "C103_construction",
    "C103_default_name_refuted",
    "C103_unusable"
   ],
   "note": "trusts that ZODB.DB has no __enter__ and refuses a name already in databases; the storage is a parameter"
  },
  {
   "property": "C104",
   "status": "proved",
   "theorems": [
    "C104_types",
    "C104_subtypes",
    "C104_properties",
    "C104_context_refuted",
    "C104_intransitive_refuted"
   ],
   "note": "As2Spec.v transcribes the recommendation from memory of its sections 2-4 (no network); Map variants of natural-language properties are not counted"
  },
  {
   "property": "C105",
   "status": "proved",
   "theorems": [
    "C105_log_is_what_callers_see",
    "C105_linearizable",
    "C105_create_never_overwrites",
    "C105_alone",
    "C105_alone_enter",
    "C105_alone_exit",
    "C105_refused_then_failed",
    "C105_refused_then_silent"
   ],
   "note": "ZODB's snapshots and its merging of BTrees are modelled in Multi.v (trusted); a storage refusal may happen at any commit"
  },
  {
   "property": "C106",
   "status": "proved",
   "theorems": [
    "C106_isolated",
    "C106_block_reads_its_snapshot",
    "C106_first_committer_wins",
    "C106_serializable_refuted"
   ],
   "note": "as C105; schedules without direct use of the container"
  },
  {
   "property": "C107",
   "status": "proved",
   "theorems": [
    "C107_read_sees_last_boundary",
    "C107_reads_are_fresh_refuted"
   ],
   "note": "as C105"
  },
  {
   "property": "C108",
   "status": "proved",
   "theorems": [
    "C108_never_damaged",
    "C108_create_is_kept_refuted",
    "C108_create_is_exclusive_refuted",
    "C108_strict_capacity_refuted",
    "C108_strict_capacity",
    "C108_maintenance_commit",
    "C108_one_maintenance",
    "C108_calls_keep_groups",
    "C108_two_groups_linearizable_refuted"
   ],
   "note": "as C105; the refutations are schedules the model accepts, which ZODB accepts too as far as its documentation says (no shared object is changed by both sides)"
  },
  {
   "property": "C109",
   "status": "proved",
   "theorems": [
    "C109_renders",
    "C109_plain",
    "C109_succeeds_iff",
    "C109_plain_is_kept",
    "C109_twice",
    "C109_dict_order",
    "C109_all_text_refuted",
    "C109_entries_kept_refuted",
    "C109_tuple_key",
    "C109_json_kept_refuted"
   ],
   "note": "floats are tokens; values that contain themselves are not modelled; stringify_timedelta and stringify_datetime have the same text as timedelta_str and datetime_str"
  },
  {
   "property": "C110",
   "status": "proved",
   "theorems": [
    "C110_block_commits_everywhere",
    "C110_exception_undoes_everywhere",
    "C110_refused_commit_undoes_everywhere",
    "C110_two_with_items",
    "C110_autocommitted_call",
    "C110_autocommit_is_shared",
    "C110_move",
    "C110_crash_during_commit",
    "C110_crash_safe_move_refuted"
   ],
   "note": "one connection per database; the two-phase commit of the transaction package (finishing the databases one after the other) is part of the trusted base"
  },
  {
   "property": "C111",
   "status": "proved",
   "theorems": [
    "C111_delete",
    "C111_caught_in_a_block"
   ],
   "note": ""
  },
  {
   "property": "C112",
   "status": "proved",
   "theorems": [
    "C112_what_happens",
    "C112_in_is_right_only_about_absent"
   ],
   "note": ""
  },
  {
   "property": "C113",
   "status": "proved",
   "theorems": [
    "C113_sum",
    "C113_first_failure",
    "C113_container_databases_refuted",
    "C113_registry"
   ],
   "note": "modules as the outcome of opening their database and the size their connection gives"
  },
  {
   "property": "C114",
   "status": "proved",
   "theorems": [
    "C114_headers",
    "C114_on_the_wire",
    "C114_two_spellings_refuted",
    "C114_answer"
   ],
   "note": "requests is an oracle for the answer; its case-insensitive merging of headers is specified in wire"
  },
  {
   "property": "C115",
   "status": "proved",
   "theorems": [
    "C115_reads",
    "C115_refuses",
    "C115_one_meaning",
    "C115_engine",
    "C115_blanks",
    "C115_only_json_refuted"
   ],
   "note": "CPython's json as specified by JsonGrammar.v; its recursion limit and the limit on digits of an int are not modelled"
  },
  {
   "property": "C116",
   "status": "proved",
   "theorems": [
    "C116_unnoticed",
    "C116_same_object",
    "C116_absent",
    "C116_other_object",
    "C116_block_end",
    "C116_without_changes",
    "C116_rollback_refuted",
    "C116_grouping_refuted",
    "C116_dropped_refuted"
   ],
   "note": "objects that are not Persistent (those of jsonld and activitystreams are not), each stored under one id; ZODB's registration of changed records and cache are modelled in InPlace.v (trusted); whether a BTree skips the assignment of an identical object is a parameter"
  },
  {
   "property": "C117",
   "status": "proved",
   "theorems": [
    "C117_storable",
    "C117_package_objects",
    "C117_originals",
    "C117_not_both",
    "C117_engine",
    "C117_data"
   ],
   "note": "pickle's rule for classes (by module and name, with the identity check) is specified in Pickle.v (trusted); the refused commit itself is C77"
  },
  {
   "property": "C118",
   "status": "proved",
   "theorems": [
    "C118_contexts_restored",
    "C118_limit",
    "C118_written",
    "C118_only_then",
    "C118_cycle",
    "C118_sharing_is_copied",
    "C118_doubling"
   ],
   "note": "C118_written / C118_only_then: a result exists iff every chain ends; C118_cycle: no result at any limit; C118_sharing_is_copied: same result as the tree (C56-C58); C118_doubling: exponential output; C118_limit; C118_contexts_restored. The recursion limit counts nested handler calls only."
  },
  {
   "property": "C119",
   "status": "proved",
   "theorems": [
    "C119_genuine",
    "C119_requests",
    "C119_after_stored",
    "C119_settled",
    "C119_progress",
    "C119_one_thread",
    "C119_at_most_once_refuted"
   ],
   "note": "C119_genuine, C119_requests, C119_after_stored, C119_settled, C119_progress, C119_one_thread; C119_at_most_once_refuted shows what C65 promises and threads do not keep. A dict operation is one atomic step."
  },
  {
   "property": "C120",
   "status": "proved",
   "theorems": [
    "C120_exceptions_any_schedule",
    "C120_exceptions_restored",
    "C120_exceptions_same",
    "C120_exceptions_one_thread",
    "C120_exceptions_refuted",
    "C120_exceptions_shared_refuted",
    "C120_stack",
    "C120_looks",
    "C120_one_thread",
    "C120_restored",
    "C120_same",
    "C120_left_in_json_refuted",
    "C120_inside_refuted",
    "C120_outside_refuted"
   ],
   "note": "Interleaving small-step semantics of the manager's methods (fine: the load, append, assign, pop, assign of CPython; coarse: each method at once). CtxThreads.v has no exceptions inside blocks; the C120_exceptions theorems (CtxSteps.v, on the manager of Context.v) have raising and catching."
  },
  {
   "property": "C121",
   "status": "proved",
   "theorems": [
    "C121_create_alone",
    "C121_delete_alone",
    "C121_creators",
    "C121_recover",
    "C121_restart",
    "C121_deleters",
    "C121_both_deletes_return_refuted",
    "C121_create_during_delete_refuted",
    "C121_remove_all_restart"
   ],
   "note": "One transition per file system call; a crash is a process that is not scheduled any more. The file system model is that of C49/C50 (POSIX, no symbolic links or permissions); shutil.rmtree (remove_all) is not split into its calls, but a delete after an rmtree that died with any part done is covered (C121_remove_all_restart). A small-step process run alone equals the functions of C49/C50 (C121_create_alone, C121_delete_alone)."
  },
  {
   "property": "C122",
   "status": "proved",
   "theorems": [
    "C122_contents",
    "C122_same_object",
    "C122_untouched",
    "C122_failed",
    "C122_as_sent_refuted"
   ],
   "note": "Proved; the unconditional 'as sent' reading is refuted (C122_as_sent_refuted). A change in place replaces the whole contents of the dict object; changes deep inside are such changes."
  },
  {
   "property": "C123",
   "status": "proved",
   "theorems": [
    "C123_reads",
    "C123_apart",
    "C123_valid",
    "C123_outcome",
    "C123_refused",
    "C123_endless",
    "C123_shares",
    "C123_raw",
    "C123_valid_refuted"
   ],
   "note": "Proved; validity without the condition on callers is refuted (C123_valid_refuted). Leaves (texts, numbers, objects) are abstract; Link.from_str is taken leaf by leaf; the recursion limit is a parameter."
  },
  {
   "property": "C124",
   "status": "proved",
   "theorems": [
    "C124_captured",
    "C124_saved",
    "C124_own",
    "C124_one_block_at_a_time",
    "C124_autocommit_per_thread",
    "C124_returned_means_saved_refuted",
    "C124_lost_refuted",
    "C124_block_means_saved_refuted",
    "C124_flag_refuted"
   ],
   "note": "ZODB's rule that a connection joins the transaction of the thread that first changes it is modelled (external). Calls, assignments, entering and leaving a block are atomic steps. One connection only: no other connection writes meanwhile."
  },
  {
   "property": "C125",
   "status": "proved",
   "theorems": [
    "C125_functions",
    "C125_static",
    "C125_kept",
    "C125_originals",
    "C125_static_refuted",
    "C125_classmethod_refuted"
   ],
   "note": "Python's binding of functions, static and class methods and callables (3.10 and later, where staticmethod objects are callable) is modelled (external). Zero-argument super() in a method refers to the original class and is part of the method's code."
  },
  {
   "property": "C126",
   "status": "proved",
   "theorems": [
    "C126_session",
    "C126_determined"
   ],
   "note": "sessions refine a map with transactions, for any commit outcomes"
  },
  {
   "property": "C127",
   "status": "proved",
   "theorems": [
    "C127_first",
    "C127_reopened",
    "C127_other_entries",
    "C127_unusable_file"
   ],
   "note": "composition of C84, C126, C47 and C48"
  },
  {
   "property": "C128",
   "status": "proved",
   "theorems": [
    "C128_open",
    "C128_flag_not_needed",
    "C128_nothing_else_read",
    "C128_path_cannot_be_changed",
    "C128_create_always_raises"
   ],
   "note": "opens (ModuleOpenFacts.v) is the separate specification by cases; both directions proved. Running a source text is a parameter."
  },
  {
   "property": "C129",
   "status": "proved",
   "theorems": [
    "C129_direct",
    "C129_direct_none",
    "C129_refresh",
    "C129_refresh_registration",
    "C129_registration",
    "C129_first_time",
    "C129_source",
    "C129_stable",
    "C129_ancestor_answers",
    "C129_own_property_wins_refuted",
    "C129_name_matches_registration_refuted",
    "C129_override_refuted",
    "C129_stable_two_bases_refuted"
   ],
   "note": "sole, seen, was_sole, was_read, direct, chain (PropRegFacts.v, PropRegDirect.v) are the specification; the four false readings are the _refuted theorems."
  },
  {
   "property": "C130",
   "status": "proved",
   "theorems": [
    "C130_never_attribute_error",
    "C130_absent",
    "C130_hasattr_never_false",
    "C130_default_never_used",
    "C130_present"
   ],
   "note": "Ordinary lookup is a parameter. Instances whose class skips JsonProperty.__init__ are not modelled."
  },
  {
   "property": "C131",
   "status": "proved",
   "theorems": [
    "C131_open",
    "C131_later_commits",
    "C131_nothing_is_committed",
    "C131_reading",
    "C131_call",
    "C131_block"
   ],
   "note": "ZODB's part (which state a historical connection reads, ReadOnlyHistoryError on commit of changes) is described in PastConn.v and is an assumption about the dependency. Which calls change stored objects is a parameter with an honesty hypothesis. The pool of historical connections (reuse of a closed one) is not modelled."
  },
  {
   "property": "C132",
   "status": "proved",
   "theorems": [
    "C132_as_new",
    "C132_attribute",
    "C132_close",
    "C132_close_plain"
   ],
   "note": "The pool, close and the start of a transaction on opening are ZODB's, modelled as described in Pool.v; one connection at a time."
  },
  {
   "property": "C133",
   "status": "proved",
   "theorems": [
    "C133_session",
    "C133_determined",
    "C133_capacity",
    "C133_forgotten",
    "C133_kept"
   ],
   "note": "DirectUse.v. Direct calls are made without a transaction manager; non-strict containers, truthy objects, encodable ids; in a failed transaction a direct operation raises even if it would change nothing."
  },
  {
   "property": "C134",
   "status": "proved",
   "theorems": [
    "C134_once",
    "C134_all",
    "C134_now",
    "C134_held",
    "C134_views",
    "C134_quiet",
    "C134_disturbed"
   ],
   "note": "WalkView.v. BTrees leaves open what a walk does when keys are added to or removed from the tree it is in: the model has no result there (None), and C134_disturbed says exactly when that is. One walk, one thread."
  },
  {
   "property": "C135",
   "status": "proved",
   "theorems": [
    "C135_session",
    "C135_determined"
   ],
   "note": "Specification ssession (strict_call n m) in StrictFacts.v; determinism proved. Example starts from Container.new(4, 2, strict=True) and meets all refusals and a failed commit."
  },
  {
   "property": "C136",
   "status": "proved",
   "theorems": [
    "C136_same",
    "C136_audit",
    "C136_no_change_without_trace",
    "C136_one_entry_per_commit",
    "C136_call",
    "C136_call_in_block",
    "C136_reads",
    "C136_every_transaction_ends",
    "C136_end_refuted"
   ],
   "note": "Specification audited/orderly in AuditFacts.v. The part false of the code (every transaction ends in the log) is C136_end_refuted: a nested block replaces the uuid of the outer one, and a failed commit logs nothing. expand_containers is not among the calls."
  },
  {
   "property": "C137",
   "status": "proved",
   "theorems": [
    "C137_reads",
    "C137_determined",
    "C137_containers",
    "C137_size",
    "C137_last_write_refuted",
    "C137_connection",
    "C137_connection_reads"
   ],
   "note": "LegacyGrow.v over Legacy.v; spec `visible` in LegacyGrowFacts.v: the last call on the id in the same residue; proved by induction over the program on one slot (container, id). The two natural expectations are refuted with short programs. Ids are strings."
  }
 ]
}