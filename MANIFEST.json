{
 "claims": [
  {
   "property": "C01",
   "status": "proved",
   "theorems": [
    "C01_compatible_iff_binds",
    "C01_compatible_never_terminates",
    "C01_volatile_refuted",
    "C01_deep_pointer_refuted",
    "C01_terminate_refuted"
   ],
   "note": "Exact outside volatile, pointer depth 16 and arrays of pointers; those limits are refuted by witness (C01_*_refuted)."
  },
  {
   "property": "C02",
   "status": "proved",
   "theorems": [
    "C02_chain_keeps_inner_const",
    "C02_reference_chain_keeps_const",
    "C02_reflexive",
    "C02_values_transitive",
    "C02_transitivity_refuted"
   ],
   "note": "Chains of any length; transitivity itself is refuted, values are transitive."
  },
  {
   "property": "C03",
   "status": "partial",
   "theorems": [
    "C03_array_safe",
    "C03_array_decay_exact",
    "C03_array_of_pointers_refuted",
    "C03_array_of_pointers_decay_refuted"
   ],
   "note": "Proved for arrays of non-pointers; refuted for arrays of pointers (const is dropped)."
  },
  {
   "property": "C04",
   "status": "proved",
   "theorems": [
    "C04_register_then_anything",
    "C04_identifiers_distinguish_names",
    "C04_only_registered_names_found",
    "C04_after_the_end",
    "C04_describes_registered_refuted",
    "C04_forged_identifier_refuted"
   ],
   "note": "All histories. Types that print alike share a description (refuted witness); forged identifiers are UB."
  },
  {
   "property": "C05",
   "status": "proved",
   "theorems": [
    "C05_decay_registered",
    "C05_never_out_of_fuel",
    "C05_identifiers_stable",
    "C05_identifiers_distinct",
    "C05_const_void_refuted",
    "C05_full_decay_idempotent",
    "C05_decayed_type",
    "C05_compatible_with_decay"
   ],
   "note": "All histories of metaTypeId over all modelled types, assuming type names are distinct and non-empty; const void is the exception (refuted witness)."
  },
  {
   "property": "C06",
   "status": "partial",
   "theorems": [
    "C06_converters_are_a_map_partial",
    "C06_convertible_pairs",
    "C06_reregister_refuted"
   ],
   "note": "Map refinement proved when each functor type is used with one value per pair; false otherwise (C06_reregister_refuted). The set of convertible pairs is right for every history."
  },
  {
   "property": "C07",
   "status": "proved",
   "theorems": [
    "C07_registration_order",
    "C07_names_unique",
    "C07_name_and_index_agree",
    "C07_indices_stable",
    "C07_add_outcome",
    "C07_empty_name_refuted"
   ],
   "note": "All histories of additions. An item with the empty name is listed but cannot be found (C07_empty_name_refuted)."
  },
  {
   "property": "C08",
   "status": "proved",
   "theorems": [
    "C08_first_match",
    "C08_empty_query",
    "C08_constructor_first_match",
    "C08_bare_name_found",
    "C08_call_operator_refuted"
   ],
   "note": "First match for every list and query. A name that itself contains '(' (operator()) is not found by bare name (refuted witness)."
  },
  {
   "property": "C09",
   "status": "proved",
   "theorems": [
    "C09_insertion_ordered_map",
    "C09_positions_stable",
    "C09_traversal",
    "C09_attribute_answers",
    "C09_element_answers",
    "C09_set_attribute",
    "C09_set_element",
    "C09_places_stay",
    "C09_element_places_stay"
   ],
   "note": "All insertion histories; later insertion under a name overwrites in place, the empty name is ignored. Also of the attributes and elements of items in any registry: answers, setting, places."
  },
  {
   "property": "C10",
   "status": "proved",
   "theorems": [
    "C10_qualified_name_is_path",
    "C10_identifies_path",
    "C10_colon_names_refuted"
   ],
   "note": "All histories of creation and queries including the cache; injective when colons occur only inside parentheses, refuted otherwise."
  },
  {
   "property": "C11",
   "status": "proved",
   "theorems": [
    "C11_for_each_prefix",
    "C11_visits_recorded"
   ],
   "note": "Every list and stateful visitor."
  },
  {
   "property": "C12",
   "status": "proved",
   "theorems": [
    "C12_namespace",
    "C12_enum",
    "C12_constructor",
    "C12_fixed_constructor",
    "C12_namespace_method",
    "C12_namespace_property",
    "C12_class_property",
    "C12_class_method",
    "C12_namespace_again",
    "C12_enum_again",
    "C12_constructor_again",
    "C12_class_property_again",
    "C12_empty_name_refuted",
    "C12_waiting_property",
    "C12_waiting_own_property",
    "C12_waiting_method",
    "C12_waiting_own_method"
   ],
   "note": "In every reachable registry, for every kind of item; for properties and methods of classes also while lazy definitions are waiting (C12_waiting_*), with the exact result when none is. The empty name, which the statement excludes, is refuted."
  },
  {
   "property": "C13",
   "status": "partial",
   "theorems": [
    "C13_find_describes",
    "C13_class_is_found",
    "C13_one_class_per_type",
    "C13_second_registration_throws",
    "C13_registration",
    "C13_taken_name_reported_refuted"
   ],
   "note": "All parts proved except that registering another type under a taken name is reported, which is refuted: the other type's class is returned."
  },
  {
   "property": "C14",
   "status": "proved",
   "theorems": [
    "C14_inheritedFrom_reachability",
    "C14_partial_order",
    "C14_cyclic_terminates_refuted",
    "C14_every_cycle_diverges"
   ],
   "note": "Exact on every acyclic graph, with termination; on cyclic base declarations, which nothing refuses, the search is proved not to end (C14_cyclic_terminates_refuted, C14_every_cycle_diverges)."
  },
  {
   "property": "C15",
   "status": "proved",
   "theorems": [
    "C15_cast_first_chain",
    "C15_null_iff_unrelated",
    "C15_choice_irrelevant",
    "C15_cast_follows_declarations",
    "C15_waiting_can_miss"
   ],
   "note": "First chain in declaration order, unique, null exactly when unrelated, independent of the choice when all chains agree. In the registry a cast always follows declared bases, also while lazy definitions run (when it may miss a base declared meanwhile)."
  },
  {
   "property": "C16",
   "status": "proved",
   "theorems": [
    "C16_mirror",
    "C16_no_duplicates",
    "C16_entries_registered",
    "C16_only_appended",
    "C16_declaration",
    "C16_base_then_derived",
    "C16_derived_then_base"
   ],
   "note": "Mirror, no duplicates, registered entries, append-only growth over all programs including throwing ones, and the exact effect of a declaration."
  },
  {
   "property": "C17",
   "status": "proved",
   "theorems": [
    "C17_member_lookup",
    "C17_own_first",
    "C17_ancestor_found",
    "C17_empty_query"
   ],
   "note": "Depth-first in declaration order, own first, complete for ancestors."
  },
  {
   "property": "C18",
   "status": "partial",
   "theorems": [
    "C18_base_first_refuted",
    "C18_override_exact_partial",
    "C18_own_wins"
   ],
   "note": "Refuted: with the base declared first the derived definition is dropped. Proved instead: the exact condition under which it takes effect, and that an own member wins look-ups."
  },
  {
   "property": "C19",
   "status": "proved",
   "theorems": [
    "C19_each_runs_once",
    "C19_complete_before_answer",
    "C19_no_reentry",
    "C19_nested_query_answers",
    "C19_throwing_definition",
    "C19_terminates"
   ],
   "note": "Counters, completion before every answer, no re-entry, throwing definitions, termination (for base relations ordered as C++ demands) and independence of fuel."
  },
  {
   "property": "C20",
   "status": "partial",
   "theorems": [
    "C20_at_most_once",
    "C20_one_at_a_time",
    "C20_seen",
    "C20_content",
    "C20_forced_first",
    "C20_single_thread",
    "C20_bounded_work",
    "C20_no_crash_refuted",
    "C20_no_partial_refuted",
    "C20_no_race_refuted",
    "C20_set_not_lost_refuted",
    "C20_failed_retried_refuted",
    "C20_set_destroys_running_refuted"
   ],
   "note": "At most once, mutual exclusion, prefix-only observation, whole content unless another thread is in the middle, safety after a forced definition and bounded work are proved for every schedule. 'No crash', 'no partial observation' and race freedom are refuted, as are racing setters and retry after an exception."
  },
  {
   "property": "C21",
   "status": "partial",
   "theorems": [
    "C21_value_semantics",
    "C21_empty",
    "C21_self_swap",
    "C21_self_swap_refuted",
    "C21_terminate_refuted"
   ],
   "note": "Proved for every program over safe contents that swaps no variant with itself, or swaps only plain small or large contents with themselves (value semantics, strong guarantee, empty(), no UB/terminate). Full statement refuted: swapping a variant with itself is undefined for every small type that owns or moves; a small copy-only type whose copy throws ends the program inside noexcept swap."
  },
  {
   "property": "C22",
   "status": "partial",
   "theorems": [
    "C22_never_twice",
    "C22_not_before",
    "C22_exactly_once",
    "C22_exactly_once_quiet",
    "C22_resources_exactly_once",
    "C22_copy_only_leaks_refuted",
    "C22_throwing_copy_leaks_refuted",
    "C22_move_only_leaks_refuted",
    "C22_objects_destroyed_refuted"
   ],
   "note": "Accounting of resources and blocks proved for every program. Full statement refuted: small copy-only types leak when moved, a throwing heap copy leaks its block, a moved small object is never destroyed."
  },
  {
   "property": "C23",
   "status": "partial",
   "theorems": [
    "C23_const_is_kept",
    "C23_only_what_binds_partial",
    "C23_succeeds_if_it_binds",
    "C23_upcast_succeeds",
    "C23_total",
    "C23_pointer_slot_refuted",
    "C23_pointers_in_arrays_refuted",
    "C23_volatile_refuted"
   ],
   "note": "Proved for all types without volatile, arrays of non-pointers, under 16 pointers: const is kept at every level; success only where the type binds, for array elements, decayed arrays and real bases. Refuted: a pointer to a derived class at the base's address is handed out as Base*&; arrays of pointers to const held by value lose the const; volatile is ignored."
  },
  {
   "property": "C24",
   "status": "partial",
   "theorems": [
    "C24_is_then_to_partial",
    "C24_canConvert_then_to_partial",
    "C24_to_then_canConvert",
    "C24_to_is_right",
    "C24_move_only_refuted",
    "C24_null_refuted",
    "C24_null_with_classInfo_refuted",
    "C24_converter_refuses_refuted"
   ],
   "note": "Proved for copyable types, non-null pointers and converters that succeed, with the converse. Refuted: move-only types, null class pointers (exception, or undefined behaviour with classInfo), converters that refuse."
  },
  {
   "property": "C25",
   "status": "partial",
   "theorems": [
    "C25_agrees_with_content",
    "C25_no_operator",
    "C25_other_types_differ",
    "C25_reflexive",
    "C25_symmetric_partial",
    "C25_transitive_partial",
    "C25_arrays_not_symmetric_refuted",
    "C25_pointers_not_symmetric_refuted",
    "C25_pointer_and_array_refuted"
   ],
   "note": "Reflexivity and agreement with the content's == proved; symmetry and transitivity for variants that do not mix types differing in inner qualifiers or array extents. Refuted for arrays of different length, int const*/int*, and pointer == array (undefined behaviour)."
  },
  {
   "property": "C26",
   "status": "partial",
   "theorems": [
    "C26_equal_hash_partial",
    "C26_bytes_refuted",
    "C26_arrays_refuted"
   ],
   "note": "Proved where equal values have equal bytes and types are not mixed. Refuted for values with several representations (the hash is over the raw bytes) and for an array and a longer one that starts with it."
  },
  {
   "property": "C27",
   "status": "partial",
   "theorems": [
    "C27_lvalue_reference_only_partial",
    "C27_lvalue_reference_same",
    "C27_lvalue_reference_derived",
    "C27_rvalue_reference_only",
    "C27_rvalue_reference_what",
    "C27_convertible_accepted",
    "C27_by_value_what",
    "C27_const_reference_what",
    "C27_empty_rejected",
    "C27_total",
    "C27_pointer_slot_refuted",
    "C27_wrapper_moved_refuted",
    "C27_variant_parameter_refuted"
   ],
   "note": "Proved for all worlds, arguments (objects, wrappers, const and non-const variants, lvalue or rvalue) and parameter types without volatile or arrays; for T& and T&& to pointers to classes false (pointer_slot). Moving from what std::ref refers to, and parameters of type variant, are refuted."
  },
  {
   "property": "C28",
   "status": "partial",
   "theorems": [
    "C28_static_called",
    "C28_static_error",
    "C28_member_called",
    "C28_member_error",
    "C28_silent_refuted",
    "C28_static_through_variant_refuted",
    "C28_ten_parameters_refuted",
    "C28_no_parameters_refuted",
    "C28_variant_member_called"
   ],
   "note": "Counting, order and invoke_error proved for static and member functions and constructors; refuted: instances that are not classes (nothing called, no error), static methods through variant::invoke, ten-parameter members, parameterless static functions through MetaMethod::invoke."
  },
  {
   "property": "C29",
   "status": "partial",
   "theorems": [
    "C29_not_on_const_partial",
    "C29_callable",
    "C29_field_partial",
    "C29_converter_refuted",
    "C29_null_refuted",
    "C29_static_instance"
   ],
   "note": "Proved if no converter to a pointer to a class is registered; refuted with one, and for null pointers."
  },
  {
   "property": "C30",
   "status": "partial",
   "theorems": [
    "C30_read_only",
    "C30_const_is_read_only",
    "C30_wrong_kind",
    "C30_failed_set",
    "C30_variable_set_get",
    "C30_field_set_get",
    "C30_accessors_set_get_partial",
    "C30_silent_refuted",
    "C30_getter_refuted",
    "C30_variant_set_get",
    "C30_variant_without_object"
   ],
   "note": "Read-only, wrong kind, failed sets change nothing: proved without conditions. Set then get: proved for variables, data members, and const getters; refuted for instances that are not classes and getters that are not const."
  },
  {
   "property": "C31",
   "status": "proved",
   "theorems": [
    "C31_nests_like_brackets",
    "C31_back_to_start",
    "C31_unbalanced",
    "C31_named_never_null",
    "C31_empty_name_refuted",
    "C31_attribute_of_last_item_refuted"
   ],
   "note": "Refinement of the stack machine to trees for all well-nested programs, return to the start, rejection of unbalanced chains, no null container for named programs; refuted: empty names, attributes after property/method/constructor."
  },
  {
   "property": "C32",
   "status": "partial",
   "theorems": [
    "C32_exactly_const_and_pointer",
    "C32_out_of_bounds_refuted",
    "C32_what_is_printed",
    "C32_integral_types_refuted"
   ],
   "note": "The claim is false: exact characterisation proved (right only for combinations of Const and Pointer), out-of-bounds reads for every flag from Array on."
  },
  {
   "property": "C33",
   "status": "partial",
   "theorems": [
    "C33_access",
    "C33_indexof",
    "C33_push_pop",
    "C33_remove_first_occurrence",
    "C33_remove_all",
    "C33_remove_duplicates",
    "C33_unordered_equal",
    "C33_map_filter_foldl",
    "C33_foldr_self_naming",
    "C33_foldr_refuted",
    "C33_index_sequence",
    "C33_tuple"
   ],
   "note": "All operations proved equal to list functions except foldr, which is right only for self-naming result types and otherwise does not compile (C33_foldr_refuted)."
  },
  {
   "property": "C34",
   "status": "proved",
   "theorems": [
    "C34_signature_identifies",
    "C34_signature_text",
    "C34_lookup_by_types",
    "C34_bare_comma_refuted"
   ],
   "note": "Under the stated guard on names; refuted for parameter texts with a bare comma."
  },
  {
   "property": "C35",
   "status": "partial",
   "theorems": [
    "C35_flags",
    "C35_traits",
    "C35_qualifier_predicates",
    "C35_pointer_arity",
    "C35_class_partial",
    "C35_class_pointer_partial",
    "C35_function_pointer",
    "C35_void_pointer_partial",
    "C35_size",
    "C35_not_valid",
    "C35_class_array_refuted",
    "C35_class_pointer_refuted",
    "C35_void_pointer_refuted"
   ],
   "note": "Qualifier, pointer, array and reference predicates exact; isClass/isClassPtr/isVoidPtr wrong for arrays of classes and void** (refuted witnesses)."
  },
  {
   "property": "C36",
   "status": "proved",
   "theorems": [
    "C36_same_item",
    "C36_objects",
    "C36_all_answered",
    "C36_lists_grow",
    "C36_empty_name_refuted"
   ],
   "note": "For every schedule of any number of threads; the guard on non-empty names is part of the property (refuted for the empty name)."
  },
  {
   "property": "C37",
   "status": "partial",
   "theorems": [
    "C37_same_class_partial",
    "C37_one_class_partial",
    "C37_registered_before",
    "C37_none_fails_refuted",
    "C37_one_class_per_type_refuted",
    "C37_found_when_given_refuted"
   ],
   "note": "Proved: one class per place, answers are that class or duplicate_metaclass, uniqueness when a type has one place, safety once registered. Refuted: none fails; one class per type across containers; find agrees with the container."
  },
  {
   "property": "C38",
   "status": "proved",
   "theorems": [
    "C38_exact_text",
    "C38_exact_text_gcc",
    "C38_marker_in_prefix_refuted"
   ],
   "note": "For every type text with the gcc prefix; refuted when the marker occurs before the type (clang prints the argument twice)."
  },
  {
   "property": "C39",
   "status": "proved",
   "theorems": [
    "C39_guards_run_once_reversed",
    "C39_prefix_when_terminated",
    "C39_created_as_often_as_destroyed",
    "C39_moved_guard_refuted",
    "C39_throwing_guard_refuted"
   ],
   "note": "Every function body with nested blocks, try, return, throw, dismiss. A moved guard runs twice (refuted witness); a throwing guard terminates."
  },
  {
   "property": "C40",
   "status": "partial",
   "theorems": [
    "C40_const_kept",
    "C40_overloads_agree",
    "C40_const_target_refuted",
    "C40_result_sub_object",
    "C40_agrees_with_conversion",
    "C40_round_trip",
    "C40_unrelated_null",
    "C40_null_stays_null",
    "C40_no_class_info",
    "C40_inherited_info",
    "C40_base_info",
    "C40_reference_form",
    "C40_repeated_base_refuted",
    "C40_undeclared_class_refuted"
   ],
   "note": "Proved for dynamic types that declare their class info and targets occurring once in the object; class info inherited from bases is that of the base C++ finds; every overload keeps const and agrees with the cast. Refuted for repeated bases, for classes that inherit class info without declaring it and for const targets without class info."
  },
  {
   "property": "C41",
   "status": "partial",
   "theorems": [
    "C41_exactly_supported",
    "C41_found_for_ever",
    "C41_absent_not_found_refuted",
    "C41_displaced_refuted",
    "C41_absent_at_first"
   ],
   "note": "Exactly the supported constructors, found for ever, absent ones not found at first; refuted: a user constructor named d_constructor is found as the default one and displaces it."
  },
  {
   "property": "C42",
   "status": "partial",
   "theorems": [
    "C42_copy_partial",
    "C42_move_partial",
    "C42_destroy",
    "C42_default_construct",
    "C42_default_trivial",
    "C42_compare",
    "C42_assigns_to_dead_storage_refuted",
    "C42_assignment_throws_terminate_refuted",
    "C42_elements",
    "C42_compare_same"
   ],
   "note": "Proved for every length and every trivial element type (copy, move) and for all elements (destroy, default construction, comparison). Refuted for elements that are not trivial: copy and move assign to storage without objects; an assignment that throws in a function declared noexcept by the copy constructor ends the program."
  },
  {
   "property": "C43",
   "status": "partial",
   "theorems": [
    "C43_visitor_defines_refuted",
    "C43_forced_definition_refuted",
    "C43_search_refuted",
    "C43_visitor_queries_refuted",
    "C43_search_queries_refuted",
    "C43_soft_never_blocks_partial",
    "C43_attribute_visitor_refuted",
    "C43_element_visitor_refuted",
    "C43_attribute_definition_refuted"
   ],
   "note": "Refuted by visitors, forced lazy definitions and searches that define into the walked list (members, attributes, elements), and by re-taken shared locks. Proved: histories whose lazy definitions and visitors only define properties, enums, constructors, attributes and elements (and whose visitors of attributes and elements do nothing to the registry) never block."
  },
  {
   "property": "C44",
   "status": "proved",
   "theorems": [
    "C44_only_grows",
    "C44_prefix",
    "C44_names_stable",
    "C44_classes_stable",
    "C44_every_item_listed",
    "C44_by_index",
    "C44_count",
    "C44_index_stable"
   ],
   "note": "Entries, identity, look-up by name and classes are stable along every program, its prefixes and exceptions."
  },
  {
   "property": "C45",
   "status": "proved",
   "theorems": [
    "C45_sequential",
    "C45_same_identifier",
    "C45_identifier_describes",
    "C45_distinct",
    "C45_no_deadlock",
    "C45_all_answered"
   ],
   "note": "For every schedule: refinement to a sequential history, uniqueness, right description, no deadlock, all answered in bounded rounds."
  },
  {
   "property": "C46",
   "status": "partial",
   "theorems": [
    "C46_successes",
    "C46_exactly_one",
    "C46_winner_partial",
    "C46_winner_refuted",
    "C46_all_answered"
   ],
   "note": "Exactly one success, stability and bounds proved for every schedule. That the successful registration's own function is used is refuted (C46_winner_refuted): the function-local static may have been initialised by the other thread; proved when one functor per C++ type is used."
  },
  {
   "property": "C47",
   "status": "partial",
   "theorems": [
    "C47_registries_safe",
    "C47_plain_destructors_partial",
    "C47_late_objects_partial",
    "C47_find_class_partial",
    "C47_types",
    "C47_converter_used",
    "C47_converter_kept_partial",
    "C47_find_defined",
    "C47_ends",
    "C47_class_refuted",
    "C47_namespace_refuted",
    "C47_handle_refuted",
    "C47_reregister_refuted",
    "C47_empty_variant_refuted",
    "C47_converter_kept_refuted"
   ],
   "note": "Registry, table and converters: proved for every program (C47_registries_safe, C47_types, C47_converter_used), with termination. Everything else holds for plain destructors, for objects constructed late and for classes if the namespace came first; the full statement is refuted for classes, the global namespace, kept handles, re-registration, empty_variant and refused converters."
  },
  {
   "property": "C48",
   "status": "partial",
   "theorems": [
    "C48_answers",
    "C48_alone_inherited",
    "C48_alone_cast",
    "C48_in_order",
    "C48_stays",
    "C48_lists",
    "C48_derived_after_base_partial",
    "C48_mirror_refuted",
    "C48_final",
    "C48_not_changed_while_walked",
    "C48_locked_once",
    "C48_no_deadlock",
    "C48_ends",
    "C48_cast_atomic_refuted"
   ],
   "note": "Everything but the mirror while a declaration is under way (C48_mirror_refuted; C48_derived_after_base_partial is the half that holds). A cast that overlaps declarations is not atomic (C48_cast_atomic_refuted). Lazy definitions are left out (C20, C43)."
  },
  {
   "property": "C49",
   "status": "partial",
   "theorems": [
    "C49_nowhere_else",
    "C49_known_names",
    "C49_no_pending_definition",
    "C49_values_only_read",
    "C49_values_enumerated",
    "C49_race_free_partial",
    "C49_locks_returned",
    "C49_qualified_name_refuted",
    "C49_global_name_refuted",
    "C49_value_refuted",
    "C49_definition_refuted",
    "C49_message_refuted"
   ],
   "note": "C49_nowhere_else bounds the places for all clients; the full statement is refuted for qualified names, deferred definitions and values by reference; C49_race_free_partial proves it for clients that avoid the three"
  },
  {
   "property": "C50",
   "status": "proved",
   "theorems": [
    "C50_answers_stay_true",
    "C50_kind_of_answer",
    "C50_denials_true",
    "C50_entries_stay",
    "C50_proper",
    "C50_one_item_per_name",
    "C50_one_type_per_name",
    "C50_reference_stays",
    "C50_found_afterwards",
    "C50_member_found_afterwards",
    "C50_type_found_afterwards",
    "C50_value_found_afterwards",
    "C50_counts_afterwards",
    "C50_position_afterwards"
   ],
   "note": "for all clients and schedules; answers of inheritedFrom and cast are in C48, those about converters in C46"
  },
  {
   "property": "C51",
   "status": "partial",
   "theorems": [
    "C51_stays",
    "C51_returned",
    "C51_retry",
    "C51_failed",
    "C51_elsewhere",
    "C51_idle",
    "C51_listed",
    "C51_leaks",
    "C51_attribute_last",
    "C51_converter_first",
    "C51_types",
    "C51_classes",
    "C51_bases",
    "C51_noexcept",
    "C51_once_refuted",
    "C51_method_refuted",
    "C51_leak_refuted",
    "C51_orphan_refuted",
    "C51_mirror_refuted",
    "C51_attribute_refuted",
    "C51_terminate_refuted"
   ],
   "note": "what is listed or found stays, calls can be repeated, names are listed at most once more per failure, at most one object leaks per failure; exact atomicity, no leak, mirror and noexcept safety are refuted"
  },
  {
   "property": "C52",
   "status": "partial",
   "theorems": [
    "C52_closed_safe",
    "C52_result_stands",
    "C52_members_stay",
    "C52_statements_nest",
    "C52_relay",
    "C52_chain_defines",
    "C52_relay_defines",
    "C52_compiles",
    "C52_siblings_refuted",
    "C52_end_twice_refuted",
    "C52_temporary_refuted",
    "C52_scope_refuted",
    "C52_base_refuted",
    "C52_namespace_in_class_refuted",
    "C52_exception_refuted",
    "C52_enum_refuted"
   ],
   "note": "relays, results, plain calls and the safety of balanced statements hold for all programs; siblings, closing twice, builders of temporaries and exceptions in between are refuted"
  },
  {
   "property": "C53",
   "status": "partial",
   "theorems": [
    "C53_returned",
    "C53_void",
    "C53_value",
    "C53_reference",
    "C53_const_kept",
    "C53_announced",
    "C53_variant",
    "C53_reference_parameter",
    "C53_const_parameter_partial",
    "C53_self_partial",
    "C53_nothing_called",
    "C53_static_result",
    "C53_member_result",
    "C53_constructor",
    "C53_compiles",
    "C53_constructor_compiles",
    "C53_converted_refuted",
    "C53_self_refuted",
    "C53_empty_is_void_refuted",
    "C53_announced_refuted",
    "C53_compiles_refuted"
   ],
   "note": "Results, announced types, exceptions, what compiles and T& parameters proved; a returned reference to a converted const parameter or into an instance passed as the object itself dangles (refuted), so those two are stated without them. What a returned variant refers to is not followed."
  },
  {
   "property": "C54",
   "status": "partial",
   "theorems": [
    "C54_invoke_refused",
    "C54_invoke_found",
    "C54_called",
    "C54_not_on_const",
    "C54_property_refused",
    "C54_get",
    "C54_set",
    "C54_set_get",
    "C54_accessors_partial",
    "C54_static_property",
    "C54_same_object",
    "C54_empty",
    "C54_defined",
    "C54_inherited_member_refuted",
    "C54_overload_refuted",
    "C54_array_refuted",
    "C54_static_refuted",
    "C54_null_refuted",
    "C54_other_base_refuted"
   ],
   "note": "Refusals, look-up, calls and data members proved, for variants that hold no array and no null pointer and members registered in the class that declares them; getters and setters proved for the law of the setter; overload choice, static methods, arrays, null pointers and repeated bases refuted."
  },
  {
   "property": "C55",
   "status": "partial",
   "theorems": [
    "C55_to_accounts",
    "C55_eq_accounts",
    "C55_eq_accounts_reporting",
    "C55_refusal_leaks_refuted",
    "C55_to_is",
    "C55_to_is_fails",
    "C55_to_empty",
    "C55_to_converts",
    "C55_to_exceptions",
    "C55_to_refines",
    "C55_exceptions_differ_refuted",
    "C55_eq_same_type",
    "C55_eq_unrelated",
    "C55_eq_converts",
    "C55_eq_empty",
    "C55_neq",
    "C55_eq_exceptions",
    "C55_eq_symmetric_one_way",
    "C55_eq_not_symmetric_refuted",
    "C55_eq_array_refuted",
    "C55_convert",
    "C55_tryConvert",
    "C55_construct",
    "C55_construct_exceptions",
    "C55_construct_leaks_refuted",
    "C55_programs",
    "C55_programs_end",
    "C55_programs_defined_partial"
   ],
   "note": "accounting, answers and exceptions in full; definedness without arrays and null pointers; refused conversions and failed construct leak, eq is not symmetric (refuted)"
  },
  {
   "property": "C56",
   "status": "proved",
   "theorems": [
    "C56_follows_the_object",
    "C56_stays_valid",
    "C56_small_stays_with_the_variant",
    "C56_small_follows_refuted",
    "C56_apart"
   ],
   "note": "References over all programs of VarModel; the refuted statement is that references to small contents follow them when moved."
  },
  {
   "property": "C57",
   "status": "partial",
   "theorems": [
    "C57_traits_faithful",
    "C57_reports",
    "C57_registrable_exactly",
    "C57_registrable_refuted",
    "C57_found_by_types",
    "C57_found_only_by_types",
    "C57_overloads_apart",
    "C57_collision_exactly",
    "C57_static_collision_refuted",
    "C57_found_by_parameters_refuted",
    "C57_overriding_members_kept",
    "C57_accessors_exactly",
    "C57_static_accessors_refuted"
   ],
   "note": "Refuted: rvalue, noexcept-with-&, noexcept-volatile and variadic functions, functors and std::function cannot be registered; a member is found with the object among the types, not by its parameters alone; a static function taking the object collides with the member. Proved: the traits, the exact set of functions that can be registered, look-up by object and parameters, all overloads listed apart with the exact exception, members of derived classes kept, the exact set of accessors."
  },
  {
   "property": "C58",
   "status": "partial",
   "theorems": [
    "C58_environment",
    "C58_inheritedFrom",
    "C58_method",
    "C58_property",
    "C58_inheritedFrom_declared",
    "C58_cast",
    "C58_invoke",
    "C58_properties",
    "C58_declared_is_called",
    "C58_own_method_stays",
    "C58_own_property_stays",
    "C58_base_stays",
    "C58_inherited_stays_refuted",
    "C58_waiting_refuted"
   ],
   "note": "full statement refuted: C58_inherited_stays_refuted, C58_waiting_refuted. Proved: the class graph and environment read off every registry that programs build satisfy the hypotheses of the theorems on casts and calls; searches of the registry and of the graph agree step for step; calls by name run the function registered with the item getMethod gives; declared methods are called; own members and bases stay."
  },
  {
   "property": "C59",
   "status": "partial",
   "theorems": [
    "C59_somebody_goes_on",
    "C59_orderly",
    "C59_plain",
    "C59_ends",
    "C59_no_crash",
    "C59_orderly_ends",
    "C59_gets_the_lock",
    "C59_visitors_refuted",
    "C59_definitions_refuted",
    "C59_readers_refuted"
   ],
   "note": "the full statement is refuted (C59_visitors_refuted, C59_definitions_refuted, C59_readers_refuted); proved: progress under an order of containers, kept by orderly clients, termination under fair schedules and absence of crashes without deferred definitions"
  },
  {
   "property": "C60",
   "status": "proved",
   "theorems": [
    "C60_atomic",
    "C60_removed",
    "C60_kept",
    "C60_add_base_refuted",
    "C60_create_class_refuted",
    "C60_get_member_refuted"
   ],
   "note": "for all clients, schedules and starting states; C60_atomic gives the order, C60_removed and C60_kept follow from it; the calls outside the statement are shown not to be atomic by C60_add_base_refuted, C60_create_class_refuted, C60_get_member_refuted"
  },
  {
   "property": "C61",
   "status": "partial",
   "theorems": [
    "C61_objects",
    "C61_storage",
    "C61_orderly",
    "C61_all_ended",
    "C61_qualifiers",
    "C61_leak_refuted",
    "C61_array_throws_refuted",
    "C61_value_refuted",
    "C61_aligned_refuted",
    "C61_array_copy_refuted"
   ],
   "note": "Proved for careful clients: no undefined behaviour, contents as expected, storage and objects accounted for, no difference by qualification. Refuted: construct keeps its storage when it throws, elements built before an exception are not ended, trivial types are left indeterminate, over-aligned types, copies of arrays of classes."
  },
  {
   "property": "C62",
   "status": "partial",
   "theorems": [
    "C62_in_bounds",
    "C62_aligned_partial",
    "C62_initialised_partial",
    "C62_contents_apart",
    "C62_access",
    "C62_heap",
    "C62_nothing_left",
    "C62_swap_keeps_place",
    "C62_move_keeps_place",
    "C62_others_stay",
    "C62_variants",
    "C62_in_place_refuted",
    "C62_swap_refuted",
    "C62_assign_refuted",
    "C62_heap_refuted",
    "C62_move_refuted"
   ],
   "note": "Proved of all programs: contents are in live storage that is large enough, do not overlap, heap blocks are exactly the contents held there and are freed once, contents on the heap stay where they are. Alignment is proved for types that suit their storage and refuted otherwise (in place, heap, swap, assignment); no indeterminate read is proved for types that are not on the heap and refuted for every move of the others."
  },
  {
   "property": "C63",
   "status": "partial",
   "theorems": [
    "C63_described_partial",
    "C63_is_partial",
    "C63_access_partial",
    "C63_to_partial",
    "C63_no_confusion_partial",
    "C63_identifier_is_name",
    "C63_same_identifiers",
    "C63_no_confusion_refuted",
    "C63_described_refuted",
    "C63_order_refuted"
   ],
   "note": "proved for types that print like no other type of the program, and that identifiers are equal exactly if types print alike; refuted for types that print alike"
  },
  {
   "property": "C64",
   "status": "partial",
   "theorems": [
    "C64_plain",
    "C64_reporting",
    "C64_explicit_refuted",
    "C64_mutable_rejected",
    "C64_const_result_rejected",
    "C64_declared_partial",
    "C64_declared_refuted",
    "C64_content_kept",
    "C64_binding_partial",
    "C64_binding_refuted",
    "C64_plain_answers",
    "C64_reporting_answers",
    "C64_never_converts",
    "C64_kind_refuted",
    "C64_constructor",
    "C64_constructor_rejected",
    "C64_constructor_partial",
    "C64_constructor_refuted"
   ],
   "note": "Exact conditions for both kinds as one writes them and for converting constructors; content never changed; answers. Refuted: explicit results of reporting functions, default arguments, qualifiers below the top, move-only constructor arguments."
  },
  {
   "property": "C65",
   "status": "partial",
   "theorems": [
    "C65_const_kept_partial",
    "C65_const_variant_partial",
    "C65_pointers_typed_partial",
    "C65_arrays_refuted",
    "C65_converter_refuted",
    "C65_slot_refuted",
    "C65_levels_refuted"
   ],
   "note": "const objects and contents of const variants are kept and pointers typed for all programs within the named restrictions; four refutations show each restriction is needed (arrays of pointers, converters to pointers, pointer slots, sixteen pointer levels)"
  },
  {
   "property": "C66",
   "status": "partial",
   "theorems": [
    "C66_one_program_partial",
    "C66_identifiers",
    "C66_empty",
    "C66_is",
    "C66_access",
    "C66_converters_loaded",
    "C66_converter_table",
    "C66_static_refuted",
    "C66_unload_refuted",
    "C66_unload_variant_refuted",
    "C66_reload_refuted",
    "C66_exit_partial",
    "C66_exit_refuted",
    "C66_refused_converter_refuted",
    "C66_same_functor_refuted"
   ],
   "note": "Every orderly history over a shared library gives the answers of the same program linked into one module, whatever the linkage; identifiers, emptiness, is and accessors across modules; registered converters stay loaded under any unloading. Missing: histories that unload a module something known still lies in, for which the property is refuted, as it is for the static library."
  },
  {
   "property": "C67",
   "status": "proved",
   "theorems": [
    "C67_as_stated",
    "C67_inherited",
    "C67_same_statements",
    "C67_any_order",
    "C67_flat",
    "C67_repeated",
    "C67_decided",
    "C67_bare_name_refuted",
    "C67_position_refuted",
    "C67_conflict_refuted",
    "C67_base_first_refuted",
    "C67_override_refuted",
    "C67_ambiguous_refuted"
   ],
   "note": "Chains of definitions, base classes included; classes come before those derived from them, no class repeats a member of a base and none gets one from two. Positions, bare names of overloads, contradicting chains, late bases and members repeated or got from two bases are refuted separately (the order does show there)."
  },
  {
   "property": "C68",
   "status": "proved",
   "theorems": [
    "C68_as_stated",
    "C68_one_answer",
    "C68_unseen",
    "C68_deferred_or_not",
    "C68_twice_refuted",
    "C68_by_type_refuted",
    "C68_late_refuted"
   ],
   "note": "For programs whose statements do not contradict one another and give no container two deferred definitions, as the statement says; questions by name and signature. Beyond it: a second deferred definition, look-up by type and definitions that contradict others are noticed (refuted). Base classes are left out, see C67."
  },
  {
   "property": "C69",
   "status": "proved",
   "theorems": [
    "C69_kept",
    "C69_same",
    "C69_eventually",
    "C69_rounds",
    "C69_twice"
   ],
   "note": "Chains of any number, order and repetition; ends with Unregistered or Duplicate, kept statements shown by all look-ups incl. bases, derived and inherited members. Deferred definitions are left to C68; exceptions thrown by user code inside definitions are C19."
  },
  {
   "property": "C70",
   "status": "proved",
   "theorems": [
    "C70_course",
    "C70_same",
    "C70_any_order",
    "C70_derived_refuted",
    "C70_silent_refuted"
   ],
   "note": "Histories of chains, deferred definitions and look-ups by name, of methods, counts, attributes and elements that stay away from containers that wait otherwise (hypothesis discreetly); look-ups that run a waiting definition through a base class are not covered. The two _refuted theorems are findings: the failure is reported once only, and derived classes are not listed before they are looked into."
  }
 ]
}