{
 "claims": [
  {
   "property": "C01",
   "status": "proved",
   "theorems": [
    "C01_assignment_on_graphs",
    "C01_assignment_stores",
    "C01_plain_assignment"
   ],
   "note": "For every class table, user code, state and budget; the plain form covers properties without listeners, whose type contains no HasProperties class or (C01_assignment_on_graphs) on settled states for values that need no construction."
  },
  {
   "property": "C02",
   "status": "proved",
   "theorems": [
    "C02_rejected_on_graphs",
    "C02_rejected_by_property",
    "C02_rejected_by_listener"
   ],
   "note": "Rejection by the property's own validation (nothing at all changes for types containing no HasProperties class, and on settled states for values that need no construction) and by a listener."
  },
  {
   "property": "C03",
   "status": "proved",
   "theorems": [
    "C03_registration_order",
    "C03_listeners_at_start_refuted",
    "C03_notification_order"
   ],
   "note": "The complete ordered event list of one notification; listeners registered during a notification may be called by it (notified); observe appends to the registration list (C03_registration_order)."
  },
  {
   "property": "C04",
   "status": "proved",
   "theorems": [
    "C04_change_only",
    "C04_change_only_values"
   ],
   "note": "By the property's own equal method; for types without HasProperties classes equality is a function of the two values."
  },
  {
   "property": "C05",
   "status": "proved",
   "theorems": [
    "C05_block_silent",
    "C05_inherited_silent",
    "C05_validation_unaffected"
   ],
   "note": "For arbitrary programs in the block."
  },
  {
   "property": "C06",
   "status": "proved",
   "theorems": [
    "C06_context_objects",
    "C06_reentered_refuted",
    "C06_scoped",
    "C06_calls"
   ],
   "note": "Library calls in World.v with fresh blocks; context objects with their identities and shared sets in Utils.v (any reuse except inside the own block, which is refuted)."
  },
  {
   "property": "C07",
   "status": "proved",
   "theorems": [
    "C07_well_typed",
    "C07_validator_can_break_typing_refuted"
   ],
   "note": "Invariant over all programs; refuted without the condition on validators."
  },
  {
   "property": "C08",
   "status": "proved",
   "theorems": [
    "C08_deletion",
    "C08_assigning_undefined",
    "C08_read_unset",
    "C08_unset_not_serialized"
   ],
   "note": ""
  },
  {
   "property": "C09",
   "status": "proved",
   "theorems": [
    "C09_defaults_on_construction",
    "C09_reset_is_assignment_of_the_default"
   ],
   "note": "Construction decomposed into the initial values and the silent default assignments; the stored value is the validated default unless user code (callable defaults, nested construction) writes the property again."
  },
  {
   "property": "C10",
   "status": "proved",
   "theorems": [
    "C10_constructor_reports_every_error"
   ],
   "note": "All three outcomes of the constructor for every keyword list."
  },
  {
   "property": "C11",
   "status": "proved",
   "theorems": [
    "C11_never_changes",
    "C11_assignment_refused"
   ],
   "note": "The model has no attribute assignment to _backend by user code."
  },
  {
   "property": "C12",
   "status": "proved",
   "theorems": [
    "C12_get_through_old_name",
    "C12_set_through_old_name",
    "C12_delete_through_old_name",
    "C12_old_name_holds_nothing",
    "C12_default_for_old_name_refuted",
    "C12_renamed_loop"
   ],
   "note": "Equal results, states and traces with one more nesting level; the old name stays empty unless a class gives it a default (refuted then)."
  },
  {
   "property": "C13",
   "status": "proved",
   "theorems": [
    "C13_get_calls_the_getter",
    "C13_setter_gets_the_validated_value",
    "C13_delete_calls_the_deleter",
    "C13_no_setter",
    "C13_no_deleter",
    "C13_construction_stores_nothing",
    "C13_nothing_is_stored",
    "C13_deserialize_stores_refuted"
   ],
   "note": "Construction and later programs store nothing; deserialization of a dictionary with the key does (refuted)."
  },
  {
   "property": "C14",
   "status": "proved",
   "theorems": [
    "C14_validate_accepts_valid_graphs",
    "C14_validate_exact",
    "C14_valid_graphs_are_valid_everywhere",
    "C14_union_hides_invalid_instance_refuted",
    "C14_required_of_contained",
    "C14_accepted_values",
    "C14_special_floats_refuted"
   ],
   "note": "On settled states (GraphSpec.v): initialized instances, user code that only reads, classes whose construction from a positional argument fails. The Union case is the _refuted theorem."
  },
  {
   "property": "C15",
   "status": "proved",
   "theorems": [
    "C15_validate_ends",
    "C15_guards_restored",
    "C15_new_guards"
   ],
   "note": "Termination on settled states (GraphSpec.v); guard restoration for every program."
  },
  {
   "property": "C16",
   "status": "proved",
   "theorems": [
    "C16_serialize_ends",
    "C16_serialize_exact",
    "C16_self_references"
   ],
   "note": "On settled states (GraphSpec.v): user code only reads. The guard is restored whatever user code does (C15_guards_restored)."
  },
  {
   "property": "C17",
   "status": "proved",
   "theorems": [
    "C17_container_keys",
    "C17_color_keys_refuted",
    "C17_round_trip",
    "C17_copy",
    "C17_copies_are_new_and_alike",
    "C17_copy_is_equal",
    "C17_copy_is_valid",
    "C17_plain_graphs_are_portable",
    "C17_deleted_property_comes_back_refuted",
    "C17_date_becomes_string_refuted",
    "C17_string_becomes_number_refuted",
    "C17_copy_with_nan_not_equal_refuted",
    "C17_copy_with_infinity_not_equal_refuted",
    "C17_sharing_is_lost_refuted"
   ],
   "note": "Without include_class the class must be the one deserialized by, or the value trusted. assert_valid=False. Defaults must not hold instances or be of Union type. Dynamic properties are not serialized (save_dynamic=False). The copy is compared with the original in the state after copying; the comparison of Sets is stated for element types compared by ==, so that the order of the elements, which the model keeps, does not matter."
  },
  {
   "property": "C18",
   "status": "proved",
   "theorems": [
    "C18_equal_ends",
    "C18_equal_reflexive",
    "C18_equal_sound",
    "C18_equal_decides",
    "C18_equal_symmetric",
    "C18_symmetric_on_cycles_refuted",
    "C18_sets_of_floats_refuted",
    "C18_transitive_refuted"
   ],
   "note": "On settled states (GraphSpec.v): user code only reads. The asymmetry on cycles and the greedy comparison of sets are proved as findings."
  },
  {
   "property": "C19",
   "status": "proved",
   "theorems": [
    "C19_result_class",
    "C19_strict_class_mismatch",
    "C19_strict_unused_key",
    "C19_unused_keys_are_ignored"
   ],
   "note": "For every dictionary, registry and option; an unhashable __class__ with trusted=True raises TypeError instead."
  },
  {
   "property": "C20",
   "status": "proved",
   "theorems": [
    "C20_deserialize_is_silent",
    "C20_copy_is_silent",
    "C20_validated_after_building",
    "C20_suppression_restored",
    "C20_dynamic_instance_refuted",
    "C20_strict_union_refuted"
   ],
   "note": "The two places where listeners are called are proved as findings (_refuted). copy is covered from the end of its serialize step: serialization itself may run user getters."
  },
  {
   "property": "C21",
   "status": "proved",
   "theorems": [
    "C21_filter_props_partition"
   ],
   "note": "For every property table and every dictionary (keys distinct)."
  },
  {
   "property": "C22",
   "status": "proved",
   "theorems": [
    "C22_leaf_idempotent",
    "C22_string_refuted",
    "C22_container_idempotent",
    "C22_stored_values_accepted",
    "C22_union_refuted"
   ],
   "note": "Leaves under `coherent`, containers and instances under `coherent_type`; C22_string_refuted and C22_union_refuted show where the claim fails."
  },
  {
   "property": "C23",
   "status": "proved",
   "theorems": [
    "C23_integer_bounds",
    "C23_integer_inclusive",
    "C23_integer_of_float",
    "C23_integer_rejections",
    "C23_integer_refuted",
    "C23_float_bounds",
    "C23_float_inclusive",
    "C23_float_of_int",
    "C23_float_rejections",
    "C23_float_refuted"
   ],
   "note": "Bounds, inclusiveness and the exact tolerance test; the *_refuted theorems record the OverflowError leaks, nan, truncation and large-int loss."
  },
  {
   "property": "C24",
   "status": "proved",
   "theorems": [
    "C24_choice",
    "C24_unique",
    "C24_order_irrelevant"
   ],
   "note": "Exact characterisation, uniqueness, independence of the order of the table."
  },
  {
   "property": "C25",
   "status": "proved",
   "theorems": [
    "C25_triple",
    "C25_sequence",
    "C25_hex6",
    "C25_hex3",
    "C25_names",
    "C25_random",
    "C25_color_refuted"
   ],
   "note": "Result shape, hex forms, names, random; C25_color_refuted records firebrick and the lenient int(.,16)."
  },
  {
   "property": "C26",
   "status": "proved",
   "theorems": [
    "C26_round_trip",
    "C26_accepted_texts",
    "C26_rejections",
    "C26_early_years_refuted"
   ],
   "note": "Round trip for padded years or years >= 1000, exact accepted grammar; refuted for early years on glibc."
  },
  {
   "property": "C27",
   "status": "proved",
   "theorems": [
    "C27_round_trip",
    "C27_injective"
   ],
   "note": "Round trip and injectivity for every 128-bit uuid."
  },
  {
   "property": "C28",
   "status": "proved",
   "theorems": [
    "C28_accepted_container",
    "C28_all_items_accepted",
    "C28_one_bad_item",
    "C28_wrong_container",
    "C28_accepted_dictionary",
    "C28_all_entries_accepted",
    "C28_not_a_dictionary",
    "C28_one_bad_entry",
    "C28_coerced_dictionary",
    "C28_not_coerced"
   ],
   "note": "Sound and complete."
  },
  {
   "property": "C29",
   "status": "proved",
   "theorems": [
    "C29_first_accepting",
    "C29_all_reject",
    "C29_no_other_failure",
    "C29_overflow_refuted"
   ],
   "note": ""
  },
  {
   "property": "C30",
   "status": "proved",
   "theorems": [
    "C30_single_inheritance",
    "C30_multiple_inheritance",
    "C30_handlers",
    "C30_order_refuted",
    "C30_hidden_refuted",
    "C30_mixin_refuted",
    "C30_names",
    "C30_tables_well_formed"
   ],
   "note": "All hierarchies for the names; exact table for single inheritance and under in_order/none_hidden for multiple inheritance; three refutations show both conditions are needed."
  },
  {
   "property": "C31",
   "status": "proved",
   "theorems": [
    "C31_single_inheritance",
    "C31_instances",
    "C31_checked",
    "C31_rejected",
    "C31_error_refuted",
    "C31_diamond_refuted"
   ],
   "note": "All hierarchies whose plain mixins have no _defaults; the diamond case is refuted for body order."
  },
  {
   "property": "C32",
   "status": "proved",
   "theorems": [
    "C32_renamed_rejected",
    "C32_observer_rejected",
    "C32_names_checked",
    "C32_observers_called",
    "C32_inherited_refuted"
   ],
   "note": "Rejection, success and calls; inherited dangling names are not rejected (refuted)."
  },
  {
   "property": "C33",
   "status": "proved",
   "theorems": [
    "C33_stored_mutation",
    "C33_stale_mutation",
    "C33_always_observed",
    "C33_always_valid",
    "C33_no_silent_change",
    "C33_failed_mutation",
    "C33_inplace_operator_refuted",
    "C33_inplace_variable_refuted",
    "C33_mutating_validator_refuted"
   ],
   "note": "Property validation, builtin methods and listeners are arbitrary functions and programs; the three violations are the _refuted theorems."
  },
  {
   "property": "C34",
   "status": "proved",
   "theorems": [
    "C34_history_keeps_network",
    "C34_only_reached",
    "C34_propagates",
    "C34_unlink_stops",
    "C34_relink_restores",
    "C34_cycle_out_of_sync_refuted",
    "C34_delete_raises_refuted",
    "C34_chain_stops_refuted",
    "C34_link_guard_restored"
   ],
   "note": "Links between instances of HasProperties classes with properties that hold no instances; transforms and other listeners compute a value or raise, without touching instances. Exceptions to the naive reading are proved as _refuted."
  },
  {
   "property": "C35",
   "status": "proved",
   "theorems": [
    "C35_terminates",
    "C35_link_in_sync",
    "C35_stays_in_sync",
    "C35_unlink_stops",
    "C35_relink_restores",
    "C35_unlink_relink"
   ],
   "note": "Same scope as C34. Unlinking and relinking a link made with update_now=False."
  },
  {
   "property": "C36",
   "status": "proved",
   "theorems": [
    "C36_used_uid_rejected",
    "C36_own_or_unused_uid_accepted",
    "C36_assigned_is_loaded",
    "C36_uid_loads_instance",
    "C36_unique",
    "C36_listeners_disabled_refuted",
    "C36_failed_construction_refuted",
    "C36_second_deletion_refuted",
    "C36_stale_uid_refuted"
   ],
   "note": "On a model of uid, _ensure_unique, _update_instances and _INSTANCES; the four violations are the _refuted theorems."
  },
  {
   "property": "C37",
   "status": "proved",
   "theorems": [
    "C37_serialize_terminates",
    "C37_serialize_entries",
    "C37_deserialize_isomorphic",
    "C37_root",
    "C37_deserialize_succeeds",
    "C37_shared_reference_refuted",
    "C37_existing_instance_refuted",
    "C37_no_copy",
    "C37_returns_unregistered",
    "C37_returns_once",
    "C37_returns_twice",
    "C37_acyclic_exact",
    "C37_returns_exact",
    "C37_other_root_isomorphic",
    "C37_other_root_registered"
   ],
   "note": "For all finite graphs of data, references and containers; class lookup and leaf serialization are not part of this model. Sharing and copying are the _refuted theorems, C37_returns_exact and C37_no_copy."
  },
  {
   "property": "C38",
   "status": "proved",
   "theorems": [
    "C38_constructed_once",
    "C38_deserialized_once",
    "C38_names_differ",
    "C38_failed_construction",
    "C38_failed_construction_quiet",
    "C38_round_trip",
    "C38_rejected_new",
    "C38_rejected",
    "C38_without_name",
    "C38_reentrant_refuted",
    "C38_failed_deserialization_refuted",
    "C38_dictionary_reused_refuted"
   ],
   "note": "The registry logic is modelled over arbitrary programs for what constructors, deserializers and user code do; the three violations are the _refuted theorems."
  },
  {
   "property": "C39",
   "status": "proved",
   "theorems": [
    "C39_run_gets_valid_input",
    "C39_runs",
    "C39_process_gets_valid_output",
    "C39_result",
    "C39_wrong_output_class"
   ],
   "note": "On the full object model, for arbitrary run and process_output functions on its state."
  },
  {
   "property": "C40",
   "status": "proved",
   "theorems": [
    "C40_array_accepts",
    "C40_array_default",
    "C40_options",
    "C40_options_rejected",
    "C40_direction_names",
    "C40_vector_shapes",
    "C40_vector_accepts",
    "C40_vector_refuses",
    "C40_names_refuted"
   ],
   "note": "numpy/vectormath conversion is an arbitrary function here; contents and lengths are in C58, C59 and C67. C40_vector_refuses gives all refusals, C40_names_refuted records the tuple and in-place findings."
  },
  {
   "property": "C41",
   "status": "proved",
   "theorems": [
    "C41_bounds_consistent",
    "C41_bounds_exact",
    "C41_any_bound_refuted",
    "C41_nan_bound_refuted",
    "C41_lengths_consistent",
    "C41_lengths_exact",
    "C41_type_error",
    "C41_modes_known",
    "C41_modes_consistent",
    "C41_mode_exact",
    "C41_valid_modes_exact",
    "C41_mode_tables",
    "C41_mode_after_valid_refuted"
   ],
   "note": "Exact acceptance and invariants over all sequences; refuted for nan bounds, for bounds that are no numbers, and for mode assigned after valid_modes."
  },
  {
   "property": "C42",
   "status": "proved",
   "theorems": [
    "C42_validate_calls_hook_once",
    "C42_constructor_calls_hook_once",
    "C42_rejected_assignment_is_reported",
    "C42_basic_property_reports",
    "C42_success_is_silent",
    "C42_number_reported_once_refuted",
    "C42_item_reported_once_refuted",
    "C42_union_success_is_silent_refuted",
    "C42_invalid_default_is_reported_refuted"
   ],
   "note": "The places where the hook is called twice, on success, or not at all are proved as findings (_refuted). The body of the hook is not modelled."
  },
  {
   "property": "C43",
   "status": "proved",
   "theorems": [
    "C43_held_released",
    "C43_backup_on_recursion",
    "C43_body_otherwise",
    "C43_terminates",
    "C43_callable_backup_refuted"
   ],
   "note": "For arbitrary bodies and backups as interaction programs; objects are compared by identity; termination for backups without calls, refuted for callable ones."
  },
  {
   "property": "C44",
   "status": "proved",
   "theorems": [
    "C44_json_round_trip",
    "C44_validate_copies",
    "C44_outcomes",
    "C44_preamble",
    "C44_text",
    "C44_reads",
    "C44_decode",
    "C44_decode_skips",
    "C44_cycle",
    "C44_cycle_refuted",
    "C44_read_image_refuted"
   ],
   "note": "base64 encode/decode modelled (CPython's lenient decoder); refuted for images read before."
  },
  {
   "property": "C45",
   "status": "proved",
   "theorems": [
    "C45_float_json"
   ],
   "note": "For every environment whose float() reads nan, inf, -inf."
  },
  {
   "property": "C46",
   "status": "proved",
   "theorems": [
    "C46_assignment_ignores_limits",
    "C46_validate_checks_lengths"
   ],
   "note": "Validation of settled states (GraphSpec.v)."
  },
  {
   "property": "C47",
   "status": "proved",
   "theorems": [
    "C47_string"
   ],
   "note": "Exact characterisation of acceptance and result."
  },
  {
   "property": "C48",
   "status": "proved",
   "theorems": [
    "C48_accepts",
    "C48_uid_property",
    "C48_errors",
    "C48_check",
    "C48_assigned_check",
    "C48_loadable_check",
    "C48_later_refuted",
    "C48_uid_type_refuted",
    "C48_json_uid",
    "C48_json_none",
    "C48_json_instance",
    "C48_instance_lost_refuted"
   ],
   "note": "The class pointed to is given by functions. Refuted in the code: a uid stays valid when its instance is created; values made by a uid property that is not text pass the check; an instance in a flat dictionary comes back."
  },
  {
   "property": "C49",
   "status": "proved",
   "theorems": [
    "C49_no_cast",
    "C49_cast",
    "C49_cast_false",
    "C49_from_json_words",
    "C49_from_json_int_refuted"
   ],
   "note": "Cast, no cast, JSON words; JSON ints pass through (refuted)."
  },
  {
   "property": "C50",
   "status": "proved",
   "theorems": [
    "C50_accepts",
    "C50_outcomes",
    "C50_assigned",
    "C50_deleted",
    "C50_delete_closes",
    "C50_assignment",
    "C50_vetoed_delete_refuted",
    "C50_wb_plus_refuted",
    "C50_png_closed_refuted",
    "C50_history",
    "C50_assignments",
    "C50_png_takes",
    "C50_replaced_refuted"
   ],
   "note": "Exact acceptance, deletion; open() is an arbitrary function; refuted findings for wb+, vetoed deletion, closed PNG streams."
  },
  {
   "property": "C51",
   "status": "proved",
   "theorems": [
    "C51_choices_exact",
    "C51_case_exact",
    "C51_choices_kept",
    "C51_descriptions",
    "C51_case_after_choices_refuted",
    "C51_choices_after_descriptions_refuted"
   ],
   "note": "Exact acceptance and invariant; two refuted findings about later assignments."
  },
  {
   "property": "C52",
   "status": "proved",
   "theorems": [
    "C52_url",
    "C52_rejected",
    "C52_fragment_removed",
    "C52_query_removed",
    "C52_idempotent",
    "C52_strip_refuted",
    "C52_regex_refuted",
    "C52_path_parameters_refuted",
    "C52_brackets_refuted"
   ],
   "note": "urlparse and geturl as in CPython 3.11.10, for ASCII text; which texts between brackets are addresses is an arbitrary function. URL.info is not modelled (it returns None)."
  },
  {
   "property": "C53",
   "status": "proved",
   "theorems": [
    "C53_declared",
    "C53_accepted_iff",
    "C53_order",
    "C53_none_order_refuted",
    "C53_bad_keyword",
    "C53_checks",
    "C53_parameters",
    "C53_assigned",
    "C53_assigned_outcomes",
    "C53_own_validate",
    "C53_odd_bounds",
    "C53_method_refuted",
    "C53_later_refuted"
   ],
   "note": "Integer and Float. Keywords that name internals of the object (the list `reserved` in Declare.v) are outside the theorem on bad keywords; instances of other property types are not modelled."
  },
  {
   "property": "C54",
   "status": "proved",
   "theorems": [
    "C54_getter_iff",
    "C54_setter_iff",
    "C54_deleter_iff",
    "C54_callable",
    "C54_names",
    "C54_rejected",
    "C54_keyword_only_refuted",
    "C54_method_refuted",
    "C54_defaults_refuted"
   ],
   "note": "The signature is that in __code__; a callable without __code__ is not checked by the code either."
  },
  {
   "property": "C55",
   "status": "proved",
   "theorems": [
    "C55_own_default",
    "C55_rejected",
    "C55_no_default",
    "C55_first_accepting",
    "C55_own_first",
    "C55_first_default",
    "C55_usable",
    "C55_reinterpreted_refuted",
    "C55_undefined_refuted",
    "C55_calls_refuted"
   ],
   "note": "Alternatives are arbitrary functions for validation and default; the default None means undefined, as in the code."
  },
  {
   "property": "C56",
   "status": "proved",
   "theorems": [
    "C56_decorator",
    "C56_on_instance",
    "C56_registered",
    "C56_disable_type",
    "C56_disable_type_error",
    "C56_validator",
    "C56_no_function_refuted",
    "C56_observer_iff",
    "C56_observer_errors",
    "C56_validator_iff",
    "C56_validator_errors"
   ],
   "note": "Registration is the one of World.v; the argument checks are those of handlers.py."
  },
  {
   "property": "C57",
   "status": "proved",
   "theorems": [
    "C57_calls",
    "C57_default",
    "C57_called_once",
    "C57_without_keywords",
    "C57_second_call_refuted"
   ],
   "note": "The function is an arbitrary function of keywords and value without state."
  },
  {
   "property": "C58",
   "status": "proved",
   "theorems": [
    "C58_equal_iff",
    "C58_reflexive",
    "C58_symmetric_refuted",
    "C58_coarse_refuted"
   ],
   "note": "numpy is modelled from its documentation (isnan, allclose with rtol 1e-5); complex, unsigned and object arrays are not."
  },
  {
   "property": "C59",
   "status": "proved",
   "theorems": [
    "C59_json",
    "C59_round_trip",
    "C59_read",
    "C59_read_errors",
    "C59_read_as_float",
    "C59_empty_refuted",
    "C59_scalar_refuted",
    "C59_truncated_refuted",
    "C59_vectors",
    "C59_complex_json",
    "C59_complex_finite",
    "C59_complex_round_trip",
    "C59_complex_refuted"
   ],
   "note": "np.array, astype and tolist are modelled from the documentation of numpy; casts that numpy leaves undefined and the constructors of vectormath are arbitrary functions."
  },
  {
   "property": "C60",
   "status": "proved",
   "theorems": [
    "C60_declared",
    "C60_only_names",
    "C60_kept",
    "C60_ends",
    "C60_error",
    "C60_shared_refuted",
    "C60_second_class_refuted",
    "C60_later_refuted",
    "C60_cycle"
   ],
   "note": "Property objects on a heap, with sharing. Names are strings; documentation built while declaring is not modelled."
  },
  {
   "property": "C61",
   "status": "proved",
   "theorems": [
    "C61_prop",
    "C61_key_prop",
    "C61_value_prop",
    "C61_union",
    "C61_union_other",
    "C61_new",
    "C61_new_dynamic"
   ],
   "note": "Warnings about defaults of contained properties are not modelled; that of a dynamic property is C54."
  },
  {
   "property": "C62",
   "status": "proved",
   "theorems": [
    "C62_tag",
    "C62_new",
    "C62_terms",
    "C62_tags_kept"
   ],
   "note": "The dictionary that meta returns could itself be changed by callers: not modelled."
  },
  {
   "property": "C63",
   "status": "proved",
   "theorems": [
    "C63_registry",
    "C63_owner",
    "C63_class",
    "C63_untrusted",
    "C63_restored",
    "C63_same_name_refuted",
    "C63_new_registry_refuted"
   ],
   "note": "Assigning to _REGISTRY after the declaration of a class is not modelled, nor mixins that declare one."
  },
  {
   "property": "C64",
   "status": "proved",
   "theorems": [
    "C64_validate",
    "C64_instance",
    "C64_instance_refuted",
    "C64_assert_valid",
    "C64_assert_outcomes",
    "C64_classes",
    "C64_int_refuted"
   ],
   "note": "Classes whose constructor changes its argument are not modelled."
  },
  {
   "property": "C65",
   "status": "proved",
   "theorems": [
    "C65_serialize",
    "C65_others",
    "C65_same",
    "C65_no_round_trip",
    "C65_keys_refuted"
   ],
   "note": "Values that contain themselves are not modelled. json is modelled for the values of PyVal.v."
  },
  {
   "property": "C66",
   "status": "proved",
   "theorems": [
    "C66_class",
    "C66_auto_create",
    "C66_default",
    "C66_error",
    "C66_default_last",
    "C66_default_auto",
    "C66_default_none",
    "C66_checked",
    "C66_check_outcomes",
    "C66_checked_refuted"
   ],
   "note": "Warnings are not modelled. A callable default always gives the same outcome."
  },
  {
   "property": "C67",
   "status": "proved",
   "theorems": [
    "C67_length",
    "C67_length_overflow",
    "C67_length_rejected",
    "C67_number_refuted",
    "C67_finite_refuted",
    "C67_coerced",
    "C67_in_place",
    "C67_one_outcome",
    "C67_argument_refuted",
    "C67_assert_coerced",
    "C67_assert_in_place",
    "C67_assert_self",
    "C67_wrong_length_refuted"
   ],
   "note": "vectormath is abstract: its constructor makes a new array, the assignment to length works in place. Refuted in the code: with coerce=False validation changes its argument, and checks do not report stored vectors of the wrong length; nan is accepted as length."
  },
  {
   "property": "C68",
   "status": "proved",
   "theorems": [
    "C68_info",
    "C68_info_errors",
    "C68_described_choices",
    "C68_info_inside",
    "C68_info_choices",
    "C68_info_bounds",
    "C68_info_lengths",
    "C68_info_others",
    "C68_value_short",
    "C68_value_long",
    "C68_message",
    "C68_message_length",
    "C68_array_message",
    "C68_error",
    "C68_error_refuted"
   ],
   "note": "repr and the texts of types, bounds of numbers, modes and dtypes are given. Refuted in the code: replaced choices and dynamic URLs raise KeyError and TypeError (C68_error_refuted)."
  },
  {
   "property": "C69",
   "status": "proved",
   "theorems": [
    "C69_old_name",
    "C69_no_end",
    "C69_declare",
    "C69_declare_errors",
    "C69_union",
    "C69_union_none",
    "C69_contained",
    "C69_auto_create",
    "C69_classes"
   ],
   "note": "warnings.warn is any function that may raise; comparison of two defaults is a function that does not raise."
  },
  {
   "property": "C70",
   "status": "proved",
   "theorems": [
    "C70_class",
    "C70_class_ok",
    "C70_order",
    "C70_alphabetical",
    "C70_order_errors",
    "C70_private",
    "C70_links",
    "C70_line",
    "C70_default",
    "C70_nested",
    "C70_nested_refuted"
   ],
   "note": "The info texts are those of C68; names and class names contain no markup."
  },
  {
   "property": "C71",
   "status": "proved",
   "theorems": [
    "C71_declared",
    "C71_accepted_iff",
    "C71_unique",
    "C71_order",
    "C71_order_refuted",
    "C71_bad_keyword",
    "C71_uuid_default",
    "C71_parameters",
    "C71_errors",
    "C71_numbers",
    "C71_union",
    "C71_union_name_refuted"
   ],
   "note": "What objects are (callables, patterns, classes, dtypes, text) and what validation says of a default are given; acceptance and order need validation to depend on the options only and exclude file_modes= and None bounds, for which C71_order_refuted shows that they matter. For Integer and Float C71_numbers proves that the declaration is the one of Declare.v (C53), whose validation is modelled in full; C71_union does so for the default of Union (C55)."
  },
  {
   "property": "C72",
   "status": "proved",
   "theorems": [
    "C72_percentage",
    "C72_rising",
    "C72_reported",
    "C72_unset_refuted",
    "C72_nan_refuted",
    "C72_dictionary",
    "C72_out_of_bounds",
    "C72_not_a_status"
   ],
   "note": "The printed line is the result of the model; round is Python 3's. For instances the state has to satisfy the declared types (C07) and floats have to be doubles; the dictionary theorems are for the class TaskStatus as declared."
  },
  {
   "property": "C73",
   "status": "proved",
   "theorems": [
    "C73_rejected",
    "C73_too_few",
    "C73_later",
    "C73_now",
    "C73_all_now",
    "C73_failed",
    "C73_unset_source_refuted",
    "C73_half_made_refuted"
   ],
   "note": "Items are (instance, name) pairs between settable properties whose types contain no HasProperties class, as in C34. The arguments are checked in C75."
  },
  {
   "property": "C74",
   "status": "proved",
   "theorems": [
    "C74_stores_the_values",
    "C74_returns_the_instance",
    "C74_refuses_other_classes",
    "C74_validated_last",
    "C74_like_a_new_instance",
    "C74_keeps_classes",
    "C74_keeps_types",
    "C74_subclass_type_refuted",
    "C74_atomic_refuted",
    "C74_unassignable_refuted"
   ],
   "note": "DeserInto.v models base.py:518-589 with _instance, on top of World.v.  The registration of uids around the call is in Uid.v (C37)."
  },
  {
   "property": "C75",
   "status": "proved",
   "theorems": [
    "C75_made",
    "C75_refused",
    "C75_misfit",
    "C75_plain_transform",
    "C75_transform_refuted",
    "C75_link",
    "C75_link_refused",
    "C75_link_keyword",
    "C75_link_result"
   ],
   "note": "Without traitlets; which attributes an instance has is read for settable properties and for names it lacks. Exactly the calls that fit are those of OLink and OLinkAll in World.v."
  },
  {
   "property": "C76",
   "status": "proved",
   "theorems": [
    "C76_int_text",
    "C76_one_value",
    "C76_size",
    "C76_integer",
    "C76_integer_refuses",
    "C76_integer_no_cast",
    "C76_color",
    "C76_color_refuses",
    "C76_uuid"
   ],
   "note": "ASCII texts; the grammar of int() is that of CPython without the limit on the number of digits of later versions. uuid.UUID(text) as in CPython."
  },
  {
   "property": "C77",
   "status": "proved",
   "theorems": [
    "C77_values_handed_on",
    "C77_calls",
    "C77_stored",
    "C77_observers_cannot_store",
    "C77_value_removed",
    "C77_validate",
    "C77_validate_unset",
    "C77_validate_stores_nothing",
    "C77_misled_refuted"
   ],
   "note": "Listeners and disabled types stay the same during an assignment. That listeners can be misled by others is C77_misled_refuted."
  },
  {
   "property": "C78",
   "status": "proved",
   "theorems": [
    "C78_validate",
    "C78_init",
    "C78_not_hidden",
    "C78_lenient",
    "C78_nested",
    "C78_error",
    "C78_emptied_refuted"
   ],
   "note": "Class validators and keywords are given by what they do. That an emptied list hides errors from an enclosing validation is C78_emptied_refuted."
  },
  {
   "property": "C79",
   "status": "proved",
   "theorems": [
    "C79_made",
    "C79_new",
    "C79_set",
    "C79_refused",
    "C79_rewrites",
    "C79_kept",
    "C79_validate",
    "C79_shared_refuted",
    "C79_refused_refuted"
   ],
   "note": "Dictionaries on a small heap; descriptions are not part of this model (they are in Options.v, C51). That a change of the shared dictionary is not checked is C79_shared_refuted, that refused choices rewrite the caller's dictionary is C79_refused_refuted."
  },
  {
   "property": "C80",
   "status": "proved",
   "theorems": [
    "C80_vector",
    "C80_array",
    "C80_effect",
    "C80_untouched",
    "C80_private",
    "C80_shared_refuted"
   ],
   "note": "Rows of numbers and lists of rows and strings on heaps; shapes and dtypes are in C40. That the caller can change the meaning of names is C80_shared_refuted."
  },
  {
   "property": "C81",
   "status": "proved",
   "theorems": [
    "C81_reads",
    "C81_unchanged",
    "C81_union_refuted"
   ],
   "note": "On the interpreter of World.v, by induction on its fuel. The exception for Unions with HasProperties classes is C81_union_refuted."
  },
  {
   "property": "C82",
   "status": "proved",
   "theorems": [
    "C82_operator",
    "C82_reflected",
    "C82_expressions",
    "C82_results",
    "C82_same_operators_refuted"
   ],
   "note": "What builtin containers and other classes do is arbitrary; Python's order of trying methods is in the model. Operands of subclasses of the container classes are not modelled. Reflected methods of other classes are C82_same_operators_refuted."
  },
  {
   "property": "C83",
   "status": "proved",
   "theorems": [
    "C83_copied",
    "C83_refused",
    "C83_private",
    "C83_disjoint",
    "C83_isolated",
    "C83_json",
    "C83_property_refuted"
   ],
   "note": "On a heap of containers; what leaf properties do is arbitrary. Unions, instances, subclasses of the container classes and listeners that change the value are left out, and equal items of sets are not merged. Property is C83_property_refuted."
  }
 ]
}