{
 "claims": [
  {
   "property": "C01",
   "status": "proved",
   "theorems": [
    "C01_vector_is_a_list"
   ],
   "note": "All methods, any call sequence. Debug and release builds; in release builds for calls that name at most isize::MAX bytes (more: see C11), refused requests included. Elements with destructors: moving calls (append/assign/clone of those are C08)."
  },
  {
   "property": "C02",
   "status": "proved",
   "theorems": [
    "C02_capacity_law"
   ],
   "note": ""
  },
  {
   "property": "C03",
   "status": "proved",
   "theorems": [
    "C03_vector_is_memory_safe"
   ],
   "note": "Debug builds, and release builds for calls that name at most isize::MAX bytes (more: see C11). Elements with destructors: moving calls (see C08)."
  },
  {
   "property": "C04",
   "status": "proved",
   "theorems": [
    "C04_elements_owned_once"
   ],
   "note": ""
  },
  {
   "property": "C05",
   "status": "proved",
   "theorems": [
    "C05_drop_returns_memory"
   ],
   "note": "Any number of vectors, any interleaving."
  },
  {
   "property": "C06",
   "status": "proved",
   "theorems": [
    "C06_out_of_range_is_harmless"
   ],
   "note": ""
  },
  {
   "property": "C07",
   "status": "proved",
   "theorems": [
    "C07_vectors_are_independent"
   ],
   "note": "Elements without destructors for clone (see C08)."
  },
  {
   "property": "C08",
   "status": "partial",
   "theorems": [
    "C08_copying_drops_uninitialised_refuted",
    "C08_assign_within_length_partial"
   ],
   "note": "False in the code: every copy of a non-empty slice of elements with destructors drops uninitialised memory. The part that holds is proved."
  },
  {
   "property": "C09",
   "status": "partial",
   "theorems": [
    "C09_assign_leaks_the_rest_refuted"
   ],
   "note": "False in the code: the old elements beyond the new length are leaked, for every such call; the exact account of what is dropped is proved."
  },
  {
   "property": "C10",
   "status": "proved",
   "theorems": [
    "C10_into_iter_yields_each_once"
   ],
   "note": ""
  },
  {
   "property": "C11",
   "status": "partial",
   "theorems": [
    "C11_capacity_is_backed_checked_partial",
    "C11_capacity_wraps_unchecked_refuted"
   ],
   "note": "Holds with overflow checks, and without them for calls that name at most isize::MAX bytes; false without them for larger ones."
  },
  {
   "property": "C12",
   "status": "partial",
   "theorems": [
    "C12_append_panic_refuted",
    "C12_push_and_insert_panic_safe_partial"
   ],
   "note": "False in the code for append; the other panicking calls are proved safe."
  },
  {
   "property": "C13",
   "status": "proved",
   "theorems": [
    "C13_collect_keeps_everything"
   ],
   "note": ""
  },
  {
   "property": "C14",
   "status": "proved",
   "theorems": [
    "C14_string_is_a_byte_list"
   ],
   "note": "Over any number of strings sharing a heap."
  },
  {
   "property": "C15",
   "status": "proved",
   "theorems": [
    "C15_writers_terminate"
   ],
   "note": ""
  },
  {
   "property": "C16",
   "status": "partial",
   "theorems": [
    "C16_remove_and_reserve_unterminate_refuted",
    "C16_terminated_without_remove_and_reserve_partial"
   ],
   "note": "False in the code: remove, reserve and with_capacity leave the string unterminated, in every reachable world. Without these calls it holds."
  },
  {
   "property": "C17",
   "status": "proved",
   "theorems": [
    "C17_terminator_stays_inside"
   ],
   "note": ""
  },
  {
   "property": "C18",
   "status": "partial",
   "theorems": [
    "C18_assign_appends_refuted",
    "C18_assign_to_empty_partial"
   ],
   "note": "False in the code: assign appends. Holds for empty strings."
  },
  {
   "property": "C19",
   "status": "partial",
   "theorems": [
    "C19_push_pop_refuted",
    "C19_push_pop_partial"
   ],
   "note": "Holds exactly for chars below 256."
  },
  {
   "property": "C20",
   "status": "partial",
   "theorems": [
    "C20_utf8_refuted",
    "C20_ascii_calls_keep_utf8_partial"
   ],
   "note": "False in the code for non-ASCII chars and for removing their bytes. The calls that keep UTF-8 are characterised exactly."
  },
  {
   "property": "C21",
   "status": "proved",
   "theorems": [
    "C21_equality_and_hash"
   ],
   "note": ""
  },
  {
   "property": "C22",
   "status": "proved",
   "theorems": [
    "C22_integer_hash_is_injective"
   ],
   "note": ""
  },
  {
   "property": "C23",
   "status": "proved",
   "theorems": [
    "C23_fnv1_is_a_32_bit_fold"
   ],
   "note": ""
  },
  {
   "property": "C24",
   "status": "proved",
   "theorems": [
    "C24_equal_floats_hash_equally",
    "C24_other_floats_saturate"
   ],
   "note": "Floats modelled by the standard library type spec_float."
  },
  {
   "property": "C25",
   "status": "proved",
   "theorems": [
    "C25_map_refinement",
    "C25_lookup_laws"
   ],
   "note": ""
  },
  {
   "property": "C26",
   "status": "proved",
   "theorems": [
    "C26_always_sorted"
   ],
   "note": ""
  },
  {
   "property": "C27",
   "status": "proved",
   "theorems": [
    "C27_binary_search",
    "C27_search_in_bounds"
   ],
   "note": "The search loop belongs to the external crate superslice and was modelled from memory of its source."
  },
  {
   "property": "C28",
   "status": "partial",
   "theorems": [
    "C28_coarse_comparator_refuted",
    "C25_map_refinement"
   ],
   "note": "False in the code: the comparator must agree with ==. Under that condition it holds (C25, C26)."
  },
  {
   "property": "C29",
   "status": "proved",
   "theorems": [
    "C29_entry_is_insert_get"
   ],
   "note": ""
  },
  {
   "property": "C30",
   "status": "proved",
   "theorems": [
    "C30_build_keeps_last"
   ],
   "note": ""
  },
  {
   "property": "C31",
   "status": "proved",
   "theorems": [
    "C31_deque_refines_list",
    "C31_deque_answers",
    "C31_from_iter"
   ],
   "note": "Elements of non-zero size whose arrays the allocator accepts (new panics otherwise); debug and release builds."
  },
  {
   "property": "C32",
   "status": "proved",
   "theorems": [
    "C32_iteration_from_both_ends",
    "C32_references_distinct",
    "C32_into_iter",
    "C32_iter_mut"
   ],
   "note": ""
  },
  {
   "property": "C33",
   "status": "proved",
   "theorems": [
    "C33_remove"
   ],
   "note": ""
  },
  {
   "property": "C34",
   "status": "proved",
   "theorems": [
    "C34_no_undefined_behaviour",
    "C34_push_back_keeps_places",
    "C34_push_front_keeps_places",
    "C34_pops_keep_places"
   ],
   "note": "Iterators kept across changes are the subject of C80."
  },
  {
   "property": "C35",
   "status": "proved",
   "theorems": [
    "C35_each_element_once",
    "C35_drop_order"
   ],
   "note": "For programs whose closures do not replace elements in place."
  },
  {
   "property": "C36",
   "status": "partial",
   "theorems": [
    "C36_drop_leaks_one_array",
    "C36_all_memory_returned_refuted"
   ],
   "note": "False in the code: the last array of elements is never freed; exactly what is leaked is proved."
  },
  {
   "property": "C37",
   "status": "proved",
   "theorems": [
    "C37_compat_round_trip"
   ],
   "note": ""
  },
  {
   "property": "C38",
   "status": "proved",
   "theorems": [
    "C38_queue_answers",
    "C38_first_in_first_out"
   ],
   "note": "Up to the size limit of C31."
  },
  {
   "property": "C39",
   "status": "proved",
   "theorems": [
    "C39_hash_map_refines_finite_map"
   ],
   "note": "All programs over insert, get, get_mut, contains, remove, remove_entry, entry, extend, clear, len, is_empty, iter, iter_mut; past 2557710464 entries the map too is limited (C47)."
  },
  {
   "property": "C40",
   "status": "proved",
   "theorems": [
    "C40_iteration_yields_each_once",
    "C40_iter_mut_visits_each_once"
   ],
   "note": "keys and values are iter with a projection."
  },
  {
   "property": "C41",
   "status": "proved",
   "theorems": [
    "C41_insert_keeps_the_others"
   ],
   "note": ""
  },
  {
   "property": "C42",
   "status": "proved",
   "theorems": [
    "C42_bucket_array_shape",
    "C42_static_array_never_written"
   ],
   "note": ""
  },
  {
   "property": "C43",
   "status": "proved",
   "theorems": [
    "C43_entry_occupied_exactly_when_present",
    "C43_entry_or_insert",
    "C43_entry_or_insert_with"
   ],
   "note": "Below the size limit of C47."
  },
  {
   "property": "C44",
   "status": "partial",
   "theorems": [
    "C44_load_at_most_one_partial",
    "C44_load_slack",
    "C44_load_refuted"
   ],
   "note": "False as stated: single-precision rounding lets a table hold up to 195 entries more than buckets once it has more than 17961079; proved up to there, and the slack at any size."
  },
  {
   "property": "C45",
   "status": "proved",
   "theorems": [
    "C45_policy_chooses_primes",
    "C45_bucket_count_prime"
   ],
   "note": "The table is sorted; the last prime occurs twice."
  },
  {
   "property": "C46",
   "status": "proved",
   "theorems": [
    "C46_growth_doubles",
    "C46_rehashes_logarithmic"
   ],
   "note": ""
  },
  {
   "property": "C47",
   "status": "partial",
   "theorems": [
    "C47_growth_never_panics_partial",
    "C47_growth_refuted"
   ],
   "note": "False as stated: the policy panics at the 2557710465th key; proved below."
  },
  {
   "property": "C48",
   "status": "proved",
   "theorems": [
    "C48_conservation",
    "C48_keys_conservation",
    "C48_nodes_freed"
   ],
   "note": "For values: programs whose closures do not replace values in place (such a replacement drops the old value inside user code)."
  },
  {
   "property": "C49",
   "status": "partial",
   "theorems": [
    "C49_drop_leaks_bucket_arrays",
    "C49_drop_refuted"
   ],
   "note": "False as stated: bucket arrays are never freed; exactly what is leaked is proved."
  },
  {
   "property": "C50",
   "status": "partial",
   "theorems": [
    "C50_insert_answers_whether_present",
    "C50_insert_refuted"
   ],
   "note": "False as stated: insert answers the opposite; the exact answer is proved."
  },
  {
   "property": "C51",
   "status": "proved",
   "theorems": [
    "C51_hash_set_refines_set"
   ],
   "note": "With the answer of insert as in C50."
  },
  {
   "property": "C52",
   "status": "proved",
   "theorems": [
    "C52_iterator_compat_roundtrip"
   ],
   "note": ""
  },
  {
   "property": "C53",
   "status": "proved",
   "theorems": [
    "C53_list_refines_list",
    "C53_list_after_refusals"
   ],
   "note": "For lists of fewer than 2^32 elements."
  },
  {
   "property": "C54",
   "status": "proved",
   "theorems": [
    "C54_ring_consistent",
    "C54_fixed_ring_consistent"
   ],
   "note": ""
  },
  {
   "property": "C55",
   "status": "proved",
   "theorems": [
    "C55_iteration_exact",
    "C55_fixed_iteration_exact"
   ],
   "note": "iter and iter_mut share the model of next; that iter_mut visits every element is part of C53."
  },
  {
   "property": "C56",
   "status": "partial",
   "theorems": [
    "C56_free_layout_refuted",
    "C61_small_lists_stay_inside"
   ],
   "note": "False in the code, for every list: nodes are freed with 16 times their size and alignment 8. Harmless only for nodes of the inline buffer of a fixed list."
  },
  {
   "property": "C57",
   "status": "proved",
   "theorems": [
    "C57_list_drop",
    "C57_fixed_list_drop"
   ],
   "note": "With an allocator that ignores sizes, as the statement says."
  },
  {
   "property": "C58",
   "status": "partial",
   "theorems": [
    "C58_nodes_well_placed",
    "C58_short_memory",
    "C58_short_memory_refuted"
   ],
   "note": "Exact: proved for memory with room for the alignment padding; for every shorter memory a debug build panics, and a release build wraps around and hands out nodes outside the memory."
  },
  {
   "property": "C59",
   "status": "proved",
   "theorems": [
    "C59_pool_is_a_stack",
    "C59_exact_capacity",
    "C59_before_init"
   ],
   "note": "Memory as in C58."
  },
  {
   "property": "C60",
   "status": "partial",
   "theorems": [
    "C60_blocks_go_home",
    "C60_before_init",
    "C60_boundary_block_refuted"
   ],
   "note": "False when a block may lie directly behind the memory (the end address counts as inside); proved when the memory reaches beyond the last slot, as in FixedList and FixedMap."
  },
  {
   "property": "C61",
   "status": "proved",
   "theorems": [
    "C61_fixed_list_refines_list",
    "C61_small_lists_stay_inside",
    "C61_buffer_first"
   ],
   "note": "Both kinds of fixed list."
  },
  {
   "property": "C62",
   "status": "proved",
   "theorems": [
    "C62_fixed_vector_is_a_list",
    "C62_programs_never_undefined",
    "C62_overflow_memory_freed",
    "C62_zero_capacity_panics"
   ],
   "note": "Both builds; in a release build no call may name more elements than a vector can hold. NODE_COUNT at least 1 (0 panics on creation)."
  },
  {
   "property": "C63",
   "status": "partial",
   "theorems": [
    "C63_flag_tells_where_elements_are",
    "C63_flag_without_clear",
    "C63_flag_refuted"
   ],
   "note": "False in the code for cleared vectors; holds whenever the vector holds an element."
  },
  {
   "property": "C64",
   "status": "partial",
   "theorems": [
    "C64_reuse_refuted",
    "C64_never_inline_again"
   ],
   "note": "False in the code: clear forgets the inline buffer for good."
  },
  {
   "property": "C65",
   "status": "proved",
   "theorems": [
    "C65_move_preserves",
    "C62_fixed_vector_is_a_list"
   ],
   "note": ""
  },
  {
   "property": "C66",
   "status": "proved",
   "theorems": [
    "C66_programs_match_sorted_entries",
    "C66_lookup_finds_exactly_the_keys",
    "C66_new_map_is_empty"
   ],
   "note": "Well-formed trees come from C++ (the crate cannot insert); well-formedness is stated on memory. Comparator: any strict weak order. insert/remove panic in the code and in the model."
  },
  {
   "property": "C67",
   "status": "proved",
   "theorems": [
    "C67_iteration_ascending_and_complete",
    "C67_highest_node_first_refuted"
   ],
   "note": "Proved for objects whose first pointer names the lowest node, as the crate documents. If the object is filled in the order of a node (highest first, as EASTL declares its anchor), the refuted theorem shows that only the highest entry is yielded."
  },
  {
   "property": "C68",
   "status": "proved",
   "theorems": [
    "C68_colour_packing_lossless",
    "C68_linking_keeps_colours",
    "C68_setters_keep_the_rest"
   ],
   "note": ""
  },
  {
   "property": "C69",
   "status": "partial",
   "theorems": [
    "C69_clear_empties_refuted",
    "C69_fixed_map_clear_then_drop_refuted"
   ],
   "note": "False of the code: clear frees the nodes but leaves the pointers and the length, so every later use, including the drop, uses freed memory."
  },
  {
   "property": "C70",
   "status": "partial",
   "theorems": [
    "C70_nodes_freed_once_partial",
    "C70_entries_dropped_refuted"
   ],
   "note": "Each node is freed exactly once; keys and values are never dropped (refuted)."
  },
  {
   "property": "C71",
   "status": "proved",
   "theorems": [
    "C71_lookup_is_logarithmic"
   ],
   "note": ""
  },
  {
   "property": "C72",
   "status": "partial",
   "theorems": [
    "C72_repr_c_layout",
    "C72_container_offsets",
    "C72_named_fields",
    "C72_named_nodes",
    "C72_wrapper_offsets",
    "C72_fixed_list_objects",
    "C72_node_layouts",
    "C72_hash_nodes_match_pairs",
    "C72_overaligned_hash_nodes_refuted",
    "C72_tree_entry_order_refuted"
   ],
   "note": "Offsets proved for every element and allocator layout. Hash nodes differ from EASTL for keys or values aligned to more than 8, and tree entries are tuples without a fixed order (refuted). The C++ side is as the EASTL headers declare it, which are not in the repository."
  },
  {
   "property": "C73",
   "status": "partial",
   "theorems": [
    "C73_allocate_then_free",
    "C73_blocks_allocate_then_free",
    "C73_zero_request_refused",
    "C73_overflowing_request_panics",
    "C73_release_request_wraps_refuted"
   ],
   "note": "Proved for requests that fit the address space and for builds with overflow checks; in release builds the byte count wraps (refuted)."
  },
  {
   "property": "C74",
   "status": "proved",
   "theorems": [
    "C74_less_and_greater_are_orders",
    "C74_maps_over_total_orders",
    "C74_tables_over_equal_to",
    "C74_partially_ordered_keys_refuted"
   ],
   "note": "Total orders, as the property says; the last theorem shows that the PartialOrd bound of the code is not enough."
  },
  {
   "property": "C75",
   "status": "proved",
   "theorems": [
    "C75_zero_sized_elements_panic"
   ],
   "note": ""
  },
  {
   "property": "C76",
   "status": "proved",
   "theorems": [
    "C76_c_string_view"
   ],
   "note": ""
  },
  {
   "property": "C77",
   "status": "proved",
   "theorems": [
    "C77_fnv1_detects_single_byte_changes"
   ],
   "note": ""
  },
  {
   "property": "C78",
   "status": "proved",
   "theorems": [
    "C78_map_ownership",
    "C78_map_memory"
   ],
   "note": ""
  },
  {
   "property": "C79",
   "status": "proved",
   "theorems": [
    "C79_pointer_array_bounded",
    "C79_queue_use_stays_small"
   ],
   "note": ""
  },
  {
   "property": "C80",
   "status": "partial",
   "theorems": [
    "C80_iterator_kept_across_changes_refuted",
    "C32_iteration_from_both_ends"
   ],
   "note": "False in the code: iter and iter_mut return iterators with the lifetime of the elements, not of the borrow. Iterators used before the next change are fine (C32)."
  },
  {
   "property": "C81",
   "status": "partial",
   "theorems": [
    "C81_iter_mut_exclusive_refuted"
   ],
   "note": "False in the code: iter_mut takes a shared borrow, so two mutable references to one element can coexist. No part of the statement holds."
  },
  {
   "property": "C82",
   "status": "proved",
   "theorems": [
    "C82_new_map_is_empty_with_room_for_n",
    "C82_drop_gives_back_every_node",
    "C82_overflow_map_new_and_drop"
   ],
   "note": "Filling is by C++ (the crate cannot insert): any sequence of pool calls, any writes into the nodes held and the map head, ending in a well-formed tree of exactly the nodes held."
  },
  {
   "property": "C83",
   "status": "proved",
   "theorems": [
    "C83_cpp_iterates_rust_table"
   ],
   "note": "The C++ iterator is that of the EASTL headers, which are not in the repository."
  },
  {
   "property": "C84",
   "status": "partial",
   "theorems": [
    "C84_cpp_iterators_given_to_rust_refuted",
    "C84_rust_iterators_given_to_cpp_refuted",
    "C52_iterator_compat_roundtrip"
   ],
   "note": "False in the code in both directions, for every table with entries: a Rust iterator holds the bucket after the current one and ends in null, a C++ iterator holds the current bucket and ends in the all-ones word. Going to the C++ form and back within Rust is the identity."
  },
  {
   "property": "C85",
   "status": "partial",
   "theorems": [
    "C85_iter_mut_yields_each_node_once_partial",
    "C85_cloned_iter_mut_aliases_refuted"
   ],
   "note": "One iterator yields every node once; but it can be cloned, and the clone yields the same values mutably."
  },
  {
   "property": "C86",
   "status": "partial",
   "theorems": [
    "C86_vector_clear_refuted",
    "C86_vector_drop_partial",
    "C86_list_clear_refuted",
    "C86_list_clear_partial",
    "C86_table_clear_refuted",
    "C86_table_clear_partial"
   ],
   "note": "Within one call each destructor runs at most once, and exactly those up to the first panic run in lists and tables; but a panic in clear leaves dropped elements in the container, and dropping it afterwards is undefined (for every container content with such an element)."
  },
  {
   "property": "C87",
   "status": "partial",
   "theorems": [
    "C87_vector_refuted",
    "C87_vector_partial",
    "C87_string_refuted",
    "C87_string_partial",
    "C87_table_refuted",
    "C87_table_partial",
    "C87_deque_refuted",
    "C87_deque_partial",
    "C87_list"
   ],
   "note": "Holds for lists. False for vectors, strings, hash tables and deques, which use the null pointer: there, exactly the calls that would have been given a new block are undefined and all others are unaffected."
  },
  {
   "property": "C88",
   "status": "proved",
   "theorems": [
    "C88_any_functions",
    "C88_calm_hash",
    "C88_pure_functions"
   ],
   "note": "For every oracle of answers and panics and every program. C88_pure_functions shows that the model with oracles and the model of the other hash table theorems coincide for pure functions."
  },
  {
   "property": "C89",
   "status": "partial",
   "theorems": [
    "C89_panicking_hash_refuted",
    "C89_panicking_hash_partial"
   ],
   "note": "False: a panic while the table grows leaks the entries already moved and leaves len too large. What is left is among the entries before, the key and value being inserted are dropped once, and nothing is lost if only the equality panics."
  },
  {
   "property": "C90",
   "status": "proved",
   "theorems": [
    "C90_cpp_iteration",
    "C90_block_choice",
    "C90_block_sizes"
   ],
   "note": "The C++ operators and the block size rule are those of the EASTL headers, which are not in the repository."
  },
  {
   "property": "C91",
   "status": "proved",
   "theorems": [
    "C91_cpp_random_access"
   ],
   "note": "Backward jumps are limited to 16777216 elements, the limit of EASTL itself."
  },
  {
   "property": "C92",
   "status": "proved",
   "theorems": [
    "C92_map_any_comparator",
    "C92_map_any_memory",
    "C92_map_any_effects",
    "C92_map_any_extends"
   ],
   "note": "Debug builds, and release builds for capacities of at most isize::MAX bytes. The comparator does not call back into the map."
  },
  {
   "property": "C93",
   "status": "proved",
   "theorems": [
    "C93_tree_any_comparator",
    "C93_tree_any_bounded",
    "C93_tree_any_extends"
   ],
   "note": "The tree is any tree in memory whose links are as EASTL keeps them; it need not be sorted."
  },
  {
   "property": "C94",
   "status": "proved",
   "theorems": [
    "C94_shared_list",
    "C94_shared_fixed_list",
    "C94_shared_list_drop"
   ],
   "note": "The allocator is not strict about the layout given on free, because of C56. C++ iterators stay in range and the allocator has room."
  },
  {
   "property": "C95",
   "status": "proved",
   "theorems": [
    "C95_vector_readers",
    "C95_string_readers",
    "C95_vector_map_readers",
    "C95_deque_readers",
    "C95_queue_readers",
    "C95_hash_map_readers",
    "C95_hash_set_readers",
    "C95_list_readers",
    "C95_tree_readers"
   ],
   "note": "A turn is a whole call, not one memory access; vectors, strings and vector maps in release builds for calls that name at most isize::MAX bytes. Lists make no Sync promise; the statement holds for them too."
  },
  {
   "property": "C96",
   "status": "proved",
   "theorems": [
    "C96_policy_exact",
    "C96_policy_rounded",
    "C96_counts_as_floats"
   ],
   "note": "Load factor 1.0 and growth factor 2.0, which no Rust code changes; floats are IEEE binary32 as Coq SpecFloat specifies them."
  },
  {
   "property": "C97",
   "status": "proved",
   "theorems": [
    "C97_vector_taken_over",
    "C97_vector_map_taken_over",
    "C97_deque_taken_over",
    "C97_hash_map_taken_over",
    "C97_list_taken_over"
   ],
   "note": "Strings are left out: Rust buffers have a byte more than the capacity and EASTL ones do not. Deques have the pointer array sizes that doubling from 8 gives, tables the bucket counts of the growth policy. What stays allocated after the drop is one array of a deque (C36) and the bucket arrays of a table (C49)."
  },
  {
   "property": "C98",
   "status": "proved",
   "theorems": [
    "C98_vector_stays",
    "C98_deque_stays",
    "C98_list_stays",
    "C98_hash_map_stays"
   ],
   "note": "Deque remove by index moves elements and is left out of the tracked calls; vectors while the capacity is unchanged and without clear. Default allocator."
  },
  {
   "property": "C99",
   "status": "partial",
   "theorems": [
    "C99_tree_drop_depth",
    "C99_counting_is_faithful",
    "C99_table_drop_depth_partial",
    "C99_table_drop_depth_refuted"
   ],
   "note": "True for maps and sets. False for hash tables: the freeing function recurses along a bucket, so the depth is the size of the fullest bucket, and for every n up to the largest table there are n integer keys that all share one bucket. The depth counts nested calls; bytes of stack per call are not modelled."
  },
  {
   "property": "C100",
   "status": "proved",
   "theorems": [
    "C100_vector_from_iter",
    "C100_vector_map_from_iter",
    "C100_deque_from_iter",
    "C100_hash_from_iter",
    "C100_entry_closures",
    "C100_entry_closures_return",
    "C100_list_extend"
   ],
   "note": "Given back means: as far as dropping such a container gives memory back at all; one array of a deque and the bucket arrays of a table stay allocated (C36, C49). The destructors themselves do not panic here (C86 is about those). Default allocator."
  },
  {
   "property": "C101",
   "status": "partial",
   "theorems": [
    "C101_vector_one_by_one_partial",
    "C101_vector_capacity_follows",
    "C101_vector_growth_refuted",
    "C101_hash_table",
    "C101_deque_push_back",
    "C101_deque_growth_refuted"
   ],
   "note": "True for hash tables and for vectors filled with push and insert. False for vectors filled with append, or with reserve before each push: both take exactly the room asked for, so n steps move n(n-1)/2 elements. Shifting within a buffer (insert at the front) is not counted. For deques true of push_back alone, false of a deque used as a queue: at some lengths every array filled moves the pointers to all the arrays."
  },
  {
   "property": "C102",
   "status": "partial",
   "theorems": [
    "C102_vector",
    "C102_deque",
    "C102_list",
    "C102_no_two_print_alike",
    "C102_hash_map",
    "C102_hash_set",
    "C102_map",
    "C102_vector_map",
    "C102_string",
    "C102_vectors_of_strings_refuted"
   ],
   "note": "True of elements whose printed forms have no commas (and keys no colons). False of strings, whose debug form does not escape quotes: a vector of two strings and a vector of one can print alike."
  },
  {
   "property": "C103",
   "status": "partial",
   "theorems": [
    "C103_deque_new",
    "C103_zero_sized_elements_refuted",
    "C103_refusing_allocator_refuted"
   ],
   "note": "True of elements with a size and the default allocator. False of zero-sized elements (the process aborts) and of allocators that panic (the destructor of the half-built deque deallocates a null pointer)."
  },
  {
   "property": "C104",
   "status": "partial",
   "theorems": [
    "C104_vector",
    "C104_list",
    "C104_fixed_list",
    "C104_deque",
    "C104_push_back_loses_refuted",
    "C104_hash_table",
    "C104_hash_table_goes_on",
    "C104_refused_first_insert_refuted"
   ],
   "note": "True of vectors (release builds: for calls that name at most isize::MAX bytes), and of lists and fixed lists. A deque stays usable but push_back can lose the element it was given. A hash table that has ever held an entry stays usable; but after the first insertion into a table was refused, the next one writes to the static empty array. Maps and sets cannot be inserted into."
  },
  {
   "property": "C105",
   "status": "partial",
   "theorems": [
    "C105_into_iter",
    "C105_deque_drop_partial",
    "C105_deque_drop_refuted",
    "C105_list_drop_refuted",
    "C105_table_drop_refuted",
    "C86_vector_drop_partial",
    "C86_list_clear_partial",
    "C86_table_clear_partial"
   ],
   "note": "True of vectors (C86_vector_drop_partial) and their consuming iterators. False of deques, lists and hash tables, which stop at the first panic: what lies behind is leaked. For all three it is shown exactly which destructors run: those up to the first panic, that one included (for lists and tables by C86_list_clear_partial and C86_table_clear_partial, since their drop is clear)."
  },
  {
   "property": "C106",
   "status": "partial",
   "theorems": [
    "C62_overflow_memory_freed",
    "C106_moved_overflow_freed_refuted"
   ],
   "note": "True as long as the allocator does not place the block where the object that was moved away used to be (C62_overflow_memory_freed). False otherwise: the moved vector keeps the old address as that of its pool and takes the block for its inline buffer."
  },
  {
   "property": "C107",
   "status": "partial",
   "theorems": [
    "C107_swap_exchanges",
    "C107_swap_refuted"
   ],
   "note": "True while both vectors exist, except that has_overflowed then answers true for elements in the other vector. False once one is dropped: the other refers to elements in its storage."
  },
  {
   "property": "C108",
   "status": "proved",
   "theorems": [
    "C108_lists_apart"
   ],
   "note": "For lists over the default allocator, with any behaviour of the global allocator that hands out memory not in use."
  },
  {
   "property": "C109",
   "status": "partial",
   "theorems": [
    "C109_list_swap_refuted"
   ],
   "note": "False: whatever two lists hold, after a swap dropping or clearing either of them is undefined. The documentation of new_in says that a list must not be moved. The theorem assumes that neither list object is itself the start of a heap block."
  },
  {
   "property": "C110",
   "status": "proved",
   "theorems": [
    "C110_only_what_may_be_sent",
    "C110_exactly_what_may_be_sent"
   ],
   "note": "About the declarations; that the methods do nothing more with a shared container than a reader may is C95."
  },
  {
   "property": "C111",
   "status": "partial",
   "theorems": [
    "C110_exactly_what_may_be_sent",
    "C111_stranded_refuted"
   ],
   "note": "True of the containers named in C110. False of lists, fixed lists, sets, fixed maps, IntoIter of vectors, entries of hash maps and most borrowing iterators: they are never Send or Sync."
  },
  {
   "property": "C112",
   "status": "proved",
   "theorems": [
    "C112_allocators_are_owned_once"
   ],
   "note": "Element cloning that does not panic; drops of elements not seen with cloning (as in C03). Allocators work like the default one but with memory of their own."
  },
  {
   "property": "C113",
   "status": "partial",
   "theorems": [
    "C113_allocators_move_along",
    "C113_move_refuted"
   ],
   "note": "True of overflow allocators without a destructor. False of the others: the move swaps the allocator with uninitialised memory, and the destruction of the old vector then runs the destructor on that."
  },
  {
   "property": "C114",
   "status": "partial",
   "theorems": [
    "C114_moved_map_lookups",
    "C114_iteration_refuted",
    "C114_empty_moved_map",
    "C114_taken_map_lookups",
    "C114_taken_iteration_refuted"
   ],
   "note": "True of every call but iteration, and of drop. False of iteration: the root still names the old place of the map as its parent, so asking for the last entry reads there (and so does iterating a moved empty map that C++ made). The same holds of a map taken out with mem::take, where one call later a null pointer is followed. Maps with heap nodes; fixed maps are not covered."
  },
  {
   "property": "C115",
   "status": "proved",
   "theorems": [
    "C115_vector_map_lookup",
    "C115_hash_lookup"
   ],
   "note": "Hash maps: the exact number of evaluations of every call that looks up one key; extend is a sequence of inserts and is not counted as one. Vector maps: the halving is that of the dependency superslice as modelled; an upper and, for calls that do not panic, a lower bound one less."
  },
  {
   "property": "C116",
   "status": "proved",
   "theorems": [
    "C116_tables_apart",
    "C116_deques_apart"
   ],
   "note": "All containers of one program have the same element types, hash function and equality. Arrays leaked by a drop (C36, C49) stay in the heap and belong to no container. A swap of a place with itself is allowed."
  },
  {
   "property": "C117",
   "status": "partial",
   "theorems": [
    "C117_vector_references",
    "C117_into_iter_references_partial",
    "C117_into_iter_refuted"
   ],
   "note": "Proved for vectors. False of the consuming iterator, with the exact condition. The allocator is the default one; alignment and aliasing of the references are not checked. The other containers are not covered."
  },
  {
   "property": "C118",
   "status": "partial",
   "theorems": [
    "C118_nonempty_slices_partial",
    "C118_empty_slice_refuted",
    "C118_append_refuted"
   ],
   "note": "False as stated; the cases that hold and those that do not are proved. Whether references to uninitialised memory are undefined by themselves is not settled in Rust; the documentation of as_ref and from_raw_parts asks for initialised values."
  },
  {
   "property": "C119",
   "status": "partial",
   "theorems": [
    "C119_slice_reach_partial"
   ],
   "note": "Exact: true for at most one element, false for more. The rule is that of Stacked Borrows, which is not part of the language yet."
  },
  {
   "property": "C120",
   "status": "partial",
   "theorems": [
    "C120_deque_shared_references_partial",
    "C120_deque_one_iterator",
    "C120_deque_shared_references_refuted",
    "C120_hash_shared_references_partial",
    "C120_hash_gets_only",
    "C120_hash_shared_references_refuted"
   ],
   "note": "False as stated; exactly when a reference stays good is proved for deques and hash tables. Only the rule that a new mutable reference ends earlier references to the same value is modelled, not the rest of Stacked Borrows."
  },
  {
   "property": "C121",
   "status": "partial",
   "theorems": [
    "C121_static_array_refuted",
    "C121_reach_partial",
    "C121_reach_refuted",
    "C121_held_reference",
    "C121_drop_refuted"
   ],
   "note": "False as stated, for each of the three rules. Exact for each of them. The last two rules are those of Stacked Borrows, the last one also of Tree Borrows."
  },
  {
   "property": "C122",
   "status": "partial",
   "theorems": [
    "C122_iterating_partial",
    "C122_next",
    "C122_room",
    "C122_large_entries",
    "C122_drop",
    "C122_fixed_iterating_partial",
    "C122_fixed_drop",
    "C122_iterating_refuted"
   ],
   "note": "False as stated. Exact: taking the last entry is what breaks the rule, unless live memory reaches far enough beyond the first pointer of the map object, as it does in fixed maps whose nodes need the alignment of a pointer."
  },
  {
   "property": "C123",
   "status": "partial",
   "theorems": [
    "C123_nodes_freed_partial",
    "C123_fixed_partial",
    "C123_nodes_freed_refuted"
   ],
   "note": "False as stated. Exact: dropping and clearing break the rule iff the map has entries. The rule is one of Stacked Borrows and of Tree Borrows."
  },
  {
   "property": "C124",
   "status": "partial",
   "theorems": [
    "C124_object_partial",
    "C124_fixed_object_partial",
    "C124_refusals_partial",
    "C124_fixed_refusals_partial",
    "C124_new_lists",
    "C124_object_refuted"
   ],
   "note": "False as stated. Exact for lists and for fixed lists of both kinds, for programs as long as the allocator finds room and for single calls whether or not it refuses. Of a fixed list only the links of the list object are looked at, not the nodes in its buffer. The rule is one of Stacked Borrows and of Tree Borrows."
  },
  {
   "property": "C125",
   "status": "partial",
   "theorems": [
    "C125_elements_partial",
    "C125_fixed_elements_partial",
    "C125_refusals_partial",
    "C125_fixed_refusals_partial",
    "C125_drop",
    "C125_elements_refuted"
   ],
   "note": "False as stated. Exact for lists and for fixed lists of both kinds, for programs as long as the allocator finds room and for single calls whether or not it refuses. The rule is one of Stacked Borrows."
  },
  {
   "property": "C126",
   "status": "partial",
   "theorems": [
    "C126_programs_partial",
    "C126_calls_partial",
    "C126_new_fixed_partial",
    "C126_nodes_refuted"
   ],
   "note": "False as stated. Exact for lists over the default allocator, and for programs on new fixed lists. Later uses of a fixed list, whose nodes may be used again, are not covered. Whether references to uninitialised memory are undefined by themselves is not settled in Rust."
  },
  {
   "property": "C127",
   "status": "partial",
   "theorems": [
    "C127_creation_partial",
    "C127_programs_partial",
    "C127_push_back_partial",
    "C127_push_front_partial",
    "C127_slices_refuted"
   ],
   "note": "False as stated. Exact for every creation, every push, and every program whose calls all answer, once the deque is created. The slice that dropping a deque makes holds only the pointers in use; Deque.v checks it already."
  },
  {
   "property": "C128",
   "status": "partial",
   "theorems": [
    "C128_programs_partial",
    "C128_new_partial",
    "C128_sets_partial",
    "C128_slices_refuted"
   ],
   "note": "False as stated. Exact for all programs on maps and sets whose calls all answer. Only the slice of a new array is looked at; arrays in use are filled when they are made."
  }
 ]
}