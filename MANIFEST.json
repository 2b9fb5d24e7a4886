{
 "claims": [
  {
   "property": "C01",
   "status": "proved",
   "theorems": [
    "C01_vector_is_sequence"
   ],
   "note": "Any number of vectors, any history of whole-vector operations."
  },
  {
   "property": "C02",
   "status": "partial",
   "theorems": [
    "C02_insert_range_partial",
    "C02_insert_fill_partial",
    "C02_insert_one_partial",
    "C02_insert_exact",
    "C02_exact",
    "C02_fine_histories_partial",
    "C02_insert_ub",
    "C02_insert_lost",
    "C02_insert_refuted",
    "C02_insert_refuted_cases"
   ],
   "note": "The full statement is false of the code (move_elements_back): refuted for begin(), empty vector and empty sequence; proved for every other case. C02_insert_exact: in every reachable state the call works exactly in those cases; C02_insert_ub and C02_insert_lost: what every other call does."
  },
  {
   "property": "C03",
   "status": "partial",
   "theorems": [
    "C03_erase_one",
    "C03_erase_range_partial",
    "C03_erase_exact",
    "C03_erase_range_refuted"
   ],
   "note": "Single erase proved in full; range erase refuted for empty ranges before the end and proved for all others; C03_erase_exact: in every reachable state an empty range before the end is undefined, every other range works."
  },
  {
   "property": "C04",
   "status": "proved",
   "theorems": [
    "C04_storage_discipline"
   ],
   "note": ""
  },
  {
   "property": "C05",
   "status": "proved",
   "theorems": [
    "C05_capacity_contract"
   ],
   "note": ""
  },
  {
   "property": "C06",
   "status": "proved",
   "theorems": [
    "C06_push_back_amortised",
    "C06_growth"
   ],
   "note": "C06_growth: the same from the middle of any history, with emplace_back and pop_back mixed in."
  },
  {
   "property": "C07",
   "status": "proved",
   "theorems": [
    "C07_copies_independent",
    "C07_no_shared_buffer"
   ],
   "note": ""
  },
  {
   "property": "C08",
   "status": "partial",
   "theorems": [
    "C08_ilist_assign_effect",
    "C08_ilist_assign_partial",
    "C08_ilist_assign_refuted",
    "C08_ilist_assign_no_return"
   ],
   "note": "False of the code; the exact effect is proved, and the claim when the list is not longer or the vector is empty (ignoring the missing return)."
  },
  {
   "property": "C09",
   "status": "proved",
   "theorems": [
    "C09_comparison",
    "C09_equality_law",
    "C09_order_laws"
   ],
   "note": ""
  },
  {
   "property": "C10",
   "status": "proved",
   "theorems": [
    "C10_into_iter",
    "C10_into_iter_reversed"
   ],
   "note": ""
  },
  {
   "property": "C11",
   "status": "proved",
   "theorems": [
    "C11_checked_access"
   ],
   "note": ""
  },
  {
   "property": "C12",
   "status": "partial",
   "theorems": [
    "C12_capacity_exact",
    "C12_capacity_partial",
    "C12_capacity_refuted"
   ],
   "note": "False for n * sizeof(T) > PTRDIFF_MAX; exactly characterised."
  },
  {
   "property": "C13",
   "status": "partial",
   "theorems": [
    "C13_alias_exact",
    "C13_insert_exact",
    "C13_alias_refuted",
    "C13_insert_refuted"
   ],
   "note": "False when the call reallocates, and for insert(p, n, v[k]) with k >= p also when it does not; exact behaviour of push_back, resize, assign and insert(p, n, v[k]) with p >= 1 proved."
  },
  {
   "property": "C14",
   "status": "proved",
   "theorems": [
    "C14_histories",
    "C14_all_partial",
    "C14_exact",
    "C14_histories_exact"
   ],
   "note": "C14_histories covers all histories of the operations the statement names, without any restriction; C14_all_partial adds sort, merge, splice, allocator moves and const front_unchecked away from the defects of C18-C20, C26, C27; C14_exact: at any reachable moment each of the excluded operations really goes wrong; C14_histories_exact: every history right on sequences is carried out faithfully or has a first call that goes wrong."
  },
  {
   "property": "C15",
   "status": "partial",
   "theorems": [
    "C15_linkage_partial",
    "C15_refuted",
    "C15_histories_exact"
   ],
   "note": "Proved in every state reached without the defects of C18-C20 and C27; refuted in general (sorting a one-element list breaks the chain). C15_histories_exact: at the end of every history all lists are chained as they should be, or there is a first call that goes wrong."
  },
  {
   "property": "C16",
   "status": "proved",
   "theorems": [
    "C16_nodes",
    "C16_separate",
    "C16_storage"
   ],
   "note": "Away from the documented defects, as the statement says. A second free or one with another layout or allocator is undefined in the model, and C14 shows no step is."
  },
  {
   "property": "C17",
   "status": "proved",
   "theorems": [
    "C17_emplace_after",
    "C17_insert_after",
    "C17_emplace",
    "C17_insert",
    "C17_erase_after",
    "C17_erase_after_end",
    "C17_erase_after_range",
    "C17_erase",
    "C17_erase_range"
   ],
   "note": "Node level: which nodes are new, freed and kept, and that nothing else changes."
  },
  {
   "property": "C18",
   "status": "partial",
   "theorems": [
    "C18_splice_after_partial",
    "C18_splice_partial",
    "C18_splice_after_empty_breaks",
    "C18_splice_empty_breaks",
    "C18_refuted"
   ],
   "note": "Splicing an empty list corrupts the target, always: proved as the ..._breaks theorems; everything else proved."
  },
  {
   "property": "C19",
   "status": "partial",
   "theorems": [
    "C19_merge_partial",
    "C19_merge_nodes_partial",
    "C19_merge_into_empty_breaks",
    "C19_merge_rvalue_undefined",
    "C19_refuted"
   ],
   "note": "Merging into an empty list breaks it and merging a non-empty rvalue reads freed nodes, always; the rest proved."
  },
  {
   "property": "C20",
   "status": "partial",
   "theorems": [
    "C20_sort_partial",
    "C20_sort_nodes_partial",
    "C20_sort_one_breaks",
    "C20_refuted"
   ],
   "note": "Sorting a one-element list breaks it, always; every other length proved."
  },
  {
   "property": "C21",
   "status": "partial",
   "theorems": [
    "C21_sort_reverses",
    "C21_sort_partial",
    "C21_sort_refuted",
    "C21_merge_refuted",
    "C19_merge_partial"
   ],
   "note": "False: sort reverses every class of equivalent elements and merge puts those of other first; both proved exactly."
  },
  {
   "property": "C22",
   "status": "proved",
   "theorems": [
    "C22_reverse",
    "C22_involution"
   ],
   "note": ""
  },
  {
   "property": "C23",
   "status": "partial",
   "theorems": [
    "C23_remove_if",
    "C23_unique",
    "C23_remove_alias_undefined",
    "C23_remove_alias_last",
    "C23_alias_refuted"
   ],
   "note": "remove_if and unique proved in full; remove(v) with v an element of the list other than the last is undefined (proved), otherwise as remove_if."
  },
  {
   "property": "C24",
   "status": "proved",
   "theorems": [
    "C24_iter",
    "C24_into_iter"
   ],
   "note": ""
  },
  {
   "property": "C25",
   "status": "partial",
   "theorems": [
    "C25_refuted",
    "C25_ends_partial"
   ],
   "note": "False: ++ and -- on reversed iterators recurse into each other for ever. Only where rbegin() and rend() point is proved."
  },
  {
   "property": "C26",
   "status": "partial",
   "theorems": [
    "C26_ends_partial",
    "C26_const_front_is_last",
    "C26_refuted"
   ],
   "note": "const front_unchecked() of List returns the last element; everything else proved."
  },
  {
   "property": "C27",
   "status": "partial",
   "theorems": [
    "C27_move_partial",
    "C27_move_elements_undefined",
    "C27_move_empty_leaks",
    "C27_refuted"
   ],
   "note": "With different allocators a non-empty source is undefined and an empty one leaks its tail node, always; equal allocators proved."
  },
  {
   "property": "C28",
   "status": "partial",
   "theorems": [
    "C28_array_histories_partial",
    "C28_array_bounds_panic",
    "C28_array_list_too_long",
    "C28_array_short_list_refuted",
    "C28_array_unset",
    "C28_histories_exact"
   ],
   "note": "A list shorter than N leaves the remaining scalar elements indeterminate (Array arr{..} runs the initializer-list constructor, which default-initialises): refuted there, proved otherwise. C28_array_unset: in every reachable state reading such an element, or copying the array, is undefined."
  },
  {
   "property": "C29",
   "status": "partial",
   "theorems": [
    "C29_array_iter",
    "C29_array_into_iter_partial",
    "C29_array_into_iter_prev_refuted",
    "C29_array_into_iter_exact",
    "C29_copy_assign_exact"
   ],
   "note": "iter() proved in full; into_iter() proved for next(); prev(), len() and copy assignment of the owning iterator are wrong and refuted. The two _exact theorems say what every sequence of calls, and every copy assignment, does instead."
  },
  {
   "property": "C30",
   "status": "proved",
   "theorems": [
    "C30_array_from_iter",
    "C30_any_iterator"
   ],
   "note": ""
  },
  {
   "property": "C31",
   "status": "proved",
   "theorems": [
    "C31_range_enumerates"
   ],
   "note": ""
  },
  {
   "property": "C32",
   "status": "partial",
   "theorems": [
    "C32_range_both_ends_exact",
    "C32_range_next_only_partial",
    "C32_range_prev_refuted"
   ],
   "note": "prev() returns high before decrementing; exact behaviour of every interleaving proved."
  },
  {
   "property": "C33",
   "status": "proved",
   "theorems": [
    "C33_slice_iterator",
    "C33_ends_meet"
   ],
   "note": ""
  },
  {
   "property": "C34",
   "status": "proved",
   "theorems": [
    "C34_option_histories",
    "C34_payloads_balanced",
    "C34_unwrap",
    "C34_option_ref_histories"
   ],
   "note": "Option<T> with payload lifetimes, and Option<T&>."
  },
  {
   "property": "C35",
   "status": "partial",
   "theorems": [
    "C35_move_construction",
    "C35_move_assignment_partial",
    "C35_move_assignment_refuted",
    "C35_full_claim_refuted",
    "C35_option_ref"
   ],
   "note": "Move construction and Option<T&> proved in full; move assignment of some to some leaves the source some: refuted."
  },
  {
   "property": "C36",
   "status": "partial",
   "theorems": [
    "C36_assignment_partial",
    "C36_mixed_assignment_exact",
    "C36_mixed_assignment_refuted",
    "C36_histories_exact"
   ],
   "note": "Assignment between different variants does not update the tag: refuted, exact behaviour proved; equal variants proved. C36_histories_exact: every history that is right on tagged sums is carried out, or panics, as it should, or has a first assignment between variants after which the target cannot be used."
  },
  {
   "property": "C37",
   "status": "proved",
   "theorems": [
    "C37_result_histories",
    "C37_accessors",
    "C37_equality"
   ],
   "note": "Along every history without a mixed-variant assignment (which C36 shows to be undefined)."
  },
  {
   "property": "C38",
   "status": "proved",
   "theorems": [
    "C38_validate_is_rfc3629",
    "C38_validate_terminates"
   ],
   "note": ""
  },
  {
   "property": "C39",
   "status": "partial",
   "theorems": [
    "C39_error_position_exact",
    "C39_error_position_partial",
    "C39_error_at_lead_partial",
    "C39_refuted"
   ],
   "note": "The reported position is that of the offending byte, not of the start of its character: refuted; exact position proved."
  },
  {
   "property": "C40",
   "status": "partial",
   "theorems": [
    "C40_chars_partial",
    "C40_exact",
    "C40_pieces",
    "C40_refuted",
    "C40_refuted_at_end",
    "C40_refuted_inside"
   ],
   "note": "U+007F is decoded as a two-byte character: refuted; proved for all strings without it."
  },
  {
   "property": "C41",
   "status": "proved",
   "theorems": [
    "C41_char_boundary"
   ],
   "note": ""
  },
  {
   "property": "C42",
   "status": "partial",
   "theorems": [
    "C42_exact",
    "C42_ascii_partial",
    "C42_refuted"
   ],
   "note": "Byte 128 is accepted: refuted; proved for strings without it."
  },
  {
   "property": "C43",
   "status": "partial",
   "theorems": [
    "C43_histories_partial",
    "C43_chars_partial",
    "C43_print16_refuted",
    "C43_assign16_refuted",
    "C43_pop17_refuted",
    "C43_missing_return_refuted",
    "C43_refuted",
    "C43_exact",
    "C43_pop17_breaks",
    "C43_by_capacity",
    "C43_histories_exact"
   ],
   "note": "False as stated. Proved for every history that avoids: printing a 16 byte string, assigning to or from a 16 byte string, pop_back from 17 bytes, and (if flowing off Allocate::operator= is counted as undefined) moves and assignments between distinct strings. Each exclusion is shown necessary by a refutation; C43_exact: in every reachable state every excluded operation is undefined, except pop_back from 17 bytes (C43_pop17_breaks: what is left) and, if the missing return counts, copying a long string over a shorter long one, which the capacity decides (C43_by_capacity). C43_histories_exact puts all of it together: every history that is right on byte sequences is carried out faithfully or has a first call that goes wrong, and contents and the rooms of C91 tell which."
  },
  {
   "property": "C44",
   "status": "partial",
   "theorems": [
    "C44_storage_partial",
    "C44_blocks_partial",
    "C44_pop17_leaks",
    "C44_refuted",
    "C43_pop17_breaks",
    "C44_histories_exact"
   ],
   "note": "pop_back from 17 to 16 bytes leaks the buffer: refuted; proved for all other histories (same guard as C43). C44_histories_exact: a history at whose end no string is left has given back everything, or has a first call that goes wrong."
  },
  {
   "property": "C45",
   "status": "proved",
   "theorems": [
    "C45_insert_valid",
    "C45_reachable"
   ],
   "note": ""
  },
  {
   "property": "C46",
   "status": "partial",
   "theorems": [
    "C46_next_exact",
    "C46_fold_partial",
    "C46_collect_partial",
    "C46_reduce_partial",
    "C46_last_partial",
    "C46_last_empty_partial",
    "C46_find_partial",
    "C46_pure_fold",
    "C46_pure_collect",
    "C46_pure_reduce",
    "C46_pure_last",
    "C46_pure_find",
    "C46_over_slice",
    "C46_refuted"
   ],
   "note": "filter() copies its predicate for every element handed out, so a predicate with mutable captured state loses it: refuted, exact behaviour proved for all closures; everything proved for predicates that keep no state of their own (arbitrary effects elsewhere allowed)."
  },
  {
   "property": "C47",
   "status": "proved",
   "theorems": [
    "C47_exhausted_all"
   ],
   "note": ""
  },
  {
   "property": "C48",
   "status": "proved",
   "theorems": [
    "C48_first_match_wins",
    "C48_void_specialisation_refuted",
    "C48_void_specialisation"
   ],
   "note": "For value-returning branches, the only ones that compile; the void specialisation does not compile when used, C48_void_specialisation_refuted shows what its bodies would do on one match and C48_void_specialisation says exactly what they would do on every match."
  },
  {
   "property": "C49",
   "status": "proved",
   "theorems": [
    "C49_construct",
    "C49_make_tuple",
    "C49_get",
    "C49_set",
    "C49_assign",
    "C49_move_assign",
    "C49_copy_move_construct",
    "C49_eq",
    "C49_for_each",
    "C49_tie",
    "C49_tuple_element"
   ],
   "note": ""
  },
  {
   "property": "C50",
   "status": "partial",
   "theorems": [
    "C50_type_list_laws",
    "C50_apply_extract",
    "C50_count_partial",
    "C50_count_empty_refuted"
   ],
   "note": "count on the empty list is an ill-formed fold expression: refuted; everything else proved."
  },
  {
   "property": "C51",
   "status": "proved",
   "theorems": [
    "C51_layout_valid",
    "C51_unchecked",
    "C51_allocator_pairing"
   ],
   "note": ""
  },
  {
   "property": "C52",
   "status": "partial",
   "theorems": [
    "C52_enough_partial",
    "C52_exact",
    "C52_refuted"
   ],
   "note": "size*length wraps at 2^64: refuted; proved when the product fits. C52_exact: the size of the block for every request, which is enough exactly when the product fits."
  },
  {
   "property": "C53",
   "status": "proved",
   "theorems": [
    "C53_print"
   ],
   "note": ""
  },
  {
   "property": "C54",
   "status": "proved",
   "theorems": [
    "C54_ascii_chars",
    "C54_ascii_ends_meet"
   ],
   "note": ""
  },
  {
   "property": "C55",
   "status": "partial",
   "theorems": [
    "C55_utf8_literal",
    "C55_ascii_literal_exact",
    "C55_ascii_literal_partial",
    "C55_ascii_refuted"
   ],
   "note": "UTF-8 proved in full; the byte 128 is accepted in ASCII literals (as C42), otherwise proved."
  },
  {
   "property": "C56",
   "status": "partial",
   "theorems": [
    "C56_utf8_char",
    "C56_ascii_char",
    "C56_one_partial",
    "C56_one_char",
    "C56_refuted",
    "C56_print_chars"
   ],
   "note": "A UTF-8 character made from a literal may hold several characters in up to four bytes; printing and lengths proved; chars() as in C40 without U+007F."
  },
  {
   "property": "C57",
   "status": "partial",
   "theorems": [
    "C57_move_partial",
    "C57_source_undefined",
    "C57_refuted"
   ],
   "note": "The moved iterator goes on correctly and everything is released once; next() on the source of the move is undefined for every vector that was not empty."
  },
  {
   "property": "C58",
   "status": "partial",
   "theorems": [
    "C58_random_access_partial",
    "C58_push_keeps",
    "C58_refuted",
    "C58_stale_never_equal"
   ],
   "note": "Proved for iterators taken at one size of the vector; == also compares the end, so iterators taken before and after a push_back never compare equal."
  },
  {
   "property": "C59",
   "status": "partial",
   "theorems": [
    "C59_array_into_iter_move_partial",
    "C59_move_assign_exact",
    "C59_refuted",
    "C59_source_refuted"
   ],
   "note": "Move construction proved for the new iterator; move assignment has no return statement, and the source goes on handing out moved-from elements (reading them counts as undefined here). C59_move_assign_exact: what move assignment does in every state."
  },
  {
   "property": "C60",
   "status": "partial",
   "theorems": [
    "C60_iterators_partial",
    "C60_value_stays",
    "C60_ends_stay_partial",
    "C60_refuted",
    "kstep_refines"
   ],
   "note": "Every history allowed by a specification with named elements (no nodes, no addresses) runs without fault and with the specified values, comparisons and contents; a kept iterator still gives its element's value after any operations that remove or assign no element; kept ends stay ends. Refuted for end() of a doubly linked List across reverse(): it becomes before_begin(). Excluded because of C18, C19 and C20: splicing an empty list, merging with an empty list, sorting a list of one element."
  },
  {
   "property": "C61",
   "status": "proved",
   "theorems": [
    "C61_sort",
    "C61_merge",
    "C61_merge_nothing",
    "C61_remove_if",
    "C61_unique"
   ],
   "note": "Merging into an empty list and merging an rvalue are undefined (C19) and not covered. After sorting one element the list is broken (C20), but no call is made."
  },
  {
   "property": "C62",
   "status": "proved",
   "theorems": [
    "C62_pipelines",
    "C62_storage",
    "C62_iter_reads_only",
    "C62_iter_collect"
   ],
   "note": "Closures are functions of the element (closures with state: C46, C47). Stages map to the element type itself. reduce has no combine() form in the code; the theorem covers it anyway."
  },
  {
   "property": "C63",
   "status": "proved",
   "theorems": [
    "C63_mixed",
    "C63_storage",
    "C63_borrow",
    "C63_round_trip"
   ],
   "note": "Vector operations under the conditions of C01-C13 (positions that avoid the defects of C02/C03, lengths up to lmax). Nodes and buffers are in separate heaps. VectorIntoIter has a deleted copy constructor, so it goes straight into from_iter or next() calls, not through stages."
  },
  {
   "property": "C64",
   "status": "proved",
   "theorems": [
    "C64_references",
    "C64_dangling",
    "C64_reserve"
   ],
   "note": "Vector operations under the conditions of C01-C13 (positions that avoid the defects of C02/C03, lengths up to lmax). Addresses are never reused by the modelled allocator, so a dangling access is always seen. Two iterators of one vector compare equal if index and remembered end are equal (975-979); see C58 for iterators taken at different sizes."
  },
  {
   "property": "C65",
   "status": "proved",
   "theorems": [
    "C65_own_range"
   ],
   "note": "Exact in all five cases. Positions p >= 1 (insertion at begin() is C02); first and last are pointers from data(), since std::distance does not accept VectorIter."
  },
  {
   "property": "C66",
   "status": "partial",
   "theorems": [
    "C66_no_throw",
    "C66_insert_one_partial",
    "C66_copy_assign_partial",
    "C66_append",
    "C66_insert_many",
    "C66_constructor",
    "C66_from_iter",
    "C66_refuted",
    "C66_refuted_cases"
   ],
   "note": "The basic guarantee is false (C66_refuted; C66_refuted_cases gives one failing run for each operation). The _partial theorems are the operations that keep it; C66_append, C66_insert_many, C66_constructor and C66_from_iter prove that the others never do, in any reachable state. Moves, swaps and destructors are assumed not to throw; insert of several elements is for the positions where C02 holds."
  },
  {
   "property": "C67",
   "status": "partial",
   "theorems": [
    "C67_histories_partial",
    "C67_no_throw",
    "C67_unchanged_partial",
    "C67_assign_breaks",
    "C67_refuted",
    "C67_refuted_destroy",
    "C67_result_histories",
    "C67_result_no_throw",
    "C67_result_terminates",
    "C67_histories_exact"
   ],
   "note": "False for copying a value into an empty Option (C67_refuted); C67_assign_breaks proves that this always breaks the Option and nothing else. Everything else is proved for all programs that go on after exceptions (C67_histories_partial, C67_result_histories). A throwing element assignment is taken to leave its target, and destructors not to throw."
  },
  {
   "property": "C68",
   "status": "partial",
   "theorems": [
    "C68_no_throw",
    "C68_constructors",
    "C68_insert_first",
    "C68_insert_torn",
    "C68_ilist_first",
    "C68_ilist_torn",
    "C68_assign_torn",
    "C68_assign_moved",
    "C68_from_first",
    "C68_from_torn",
    "C68_noexcept",
    "C68_others_partial",
    "C68_refuted",
    "C68_refuted_cases",
    "C68_refuted_double"
   ],
   "note": "The claim is false (C68_refuted; one failing run for each operation in C68_refuted_cases and C68_refuted_double). Each other theorem states the exact state after the exception, in every state reached by a history allowed by C14/C15, and that the other lists keep their contents (C68_others_partial for all operations at once). size() after a torn insert depends on whether the overload counts per element or at the end; the model takes this as a parameter (counting), and the theorem holds for both."
  },
  {
   "property": "C69",
   "status": "partial",
   "theorems": [
    "C69_calls",
    "C69_sort_throws",
    "C69_sort",
    "C69_merge",
    "C69_unique",
    "C69_remove_if",
    "C69_refuted",
    "C69_refuted_cases"
   ],
   "note": "The claim is false (C69_refuted; one failing run for each operation and call in C69_refuted_cases; C69_merge_ex shows both ends of an interrupted merge). The other theorems state what is left in every state reached by a history allowed by C14/C15. merge is stated for the lvalue overload and two lists with the same allocator; the rvalue overload only by C69_calls."
  },
  {
   "property": "C70",
   "status": "partial",
   "theorems": [
    "C70_list_partial",
    "C70_list_undefined",
    "C70_list_frugal",
    "C70_list_refuted",
    "C70_string_histories_partial",
    "C70_string_short",
    "C70_string_long",
    "C70_string_refuted",
    "C70_vec_partial",
    "C70_vec_undefined",
    "C70_vec_silent_default",
    "C70_vec_silent_reserve",
    "C70_vec_refuted"
   ],
   "note": "The claim is false (the three _refuted theorems). The others say exactly what happens instead, for the histories of C01-C03 (vectors), C14/C15 (lists) and C43 (strings); their English is in the statement. Only nothrow null answers are modelled, as in Allocator; requests above PTRDIFF_MAX bytes are outside the histories considered."
  },
  {
   "property": "C71",
   "status": "partial",
   "theorems": [
    "C71_refuted",
    "C71_programs_partial",
    "C71_storage",
    "C71_exact_partial"
   ],
   "note": "The claim is false (C71_refuted). The other theorems say exactly what happens instead; the English is in the statement. Copying and moving closures and elements does not throw here; from_iter's own exceptions are C66/C68."
  },
  {
   "property": "C72",
   "status": "partial",
   "theorems": [
    "C72_types",
    "C72_eq_refuted",
    "C72_transitive_refuted",
    "C72_when_refuted",
    "C72_contains",
    "C72_accepted",
    "C72_cursors",
    "C72_eq_sym",
    "C72_eq_refl",
    "C72_eq_exact",
    "C72_modulus",
    "C72_eq_claim",
    "C72_eq_partial"
   ],
   "note": "The part about == is false (C72_eq_refuted, C72_transitive_refuted, C72_when_refuted); C72_eq_exact says exactly when == holds and C72_eq_claim for which types the claim is true. bool and floating-point index types are not modelled."
  },
  {
   "property": "C73",
   "status": "partial",
   "theorems": [
    "C73_cursors",
    "C73_walk",
    "C73_distance",
    "C73_distance_refuted"
   ],
   "note": "C73_cursors is an equivalence: defined programs do what the specification says, excluded ones are Err UB. The distance claim holds only when the difference is representable (C73_distance_refuted)."
  },
  {
   "property": "C74",
   "status": "partial",
   "theorems": [
    "C74_refuted",
    "C74_references",
    "C74_insert_after_endless",
    "C74_insert_endless"
   ],
   "note": "C74_refuted: the claim without the condition on own ranges is false for both kinds of list. C74_references is the claim with the condition; C74_insert_after_endless and C74_insert_endless say that in every reachable state the excluded calls never return (no number of rounds suffices; memory is taken to be unlimited)."
  },
  {
   "property": "C75",
   "status": "partial",
   "theorems": [
    "C75_debug_exact",
    "C75_debug_histories",
    "C75_false_alarms",
    "C75_pop_front_missed",
    "C75_uncaught",
    "C75_refuted"
   ],
   "note": "C75_refuted: the claim is false, copies of moved-from lists panic. C75_debug_exact and C75_debug_histories say for every call in every reachable state whether a debug build panics; C75_false_alarms which of these calls are carried out as specified in a release build; C75_pop_front_missed and C75_uncaught what is not caught."
  },
  {
   "property": "C76",
   "status": "proved",
   "theorems": [
    "C76_moved_from"
   ],
   "note": "Exact for every member. What the members allowed on moved-from lists do is part of C14-C16."
  },
  {
   "property": "C77",
   "status": "proved",
   "theorems": [
    "C77_debug_exact",
    "C77_debug_histories"
   ],
   "note": ""
  },
  {
   "property": "C78",
   "status": "proved",
   "theorems": [
    "C78_histories",
    "C78_dangling",
    "C78_moved",
    "C78_copy_by_capacity",
    "C78_walk"
   ],
   "note": "Reading at a position beyond the present size of the string, and the string operations C43 excludes, are not specified."
  },
  {
   "property": "C79",
   "status": "proved",
   "theorems": [
    "C79_views",
    "C79_ended",
    "C79_into_iter"
   ],
   "note": ""
  },
  {
   "property": "C80",
   "status": "proved",
   "theorems": [
    "C80_programs",
    "C80_panics",
    "C80_storage"
   ],
   "note": "Conditions as in C63, and the known exceptions of C32 (Range::prev) and C40 (U+007F) are outside. All arrays of a program have the same length. Elements of ranges and strings enter through a first map stage."
  },
  {
   "property": "C81",
   "status": "proved",
   "theorems": [
    "C81_growth"
   ],
   "note": "Bytes count as moved when the place of the string's bytes changes; the call's own bytes and the shifting inside insert are not counted."
  },
  {
   "property": "C82",
   "status": "partial",
   "theorems": [
    "C82_calls_partial",
    "C82_transparent_partial",
    "C82_balance_partial",
    "C82_all_returned_partial",
    "C82_assign_partial",
    "C82_assign_refuted"
   ],
   "note": "That an assigned string uses the allocator of the source is false (C82_assign_refuted); C82_assign_partial gives the rule. The histories are those of C43: without the operations on strings of 16 bytes that are undefined, and, if flowing off the end of Allocate::operator= is undefined, without those that use it."
  },
  {
   "property": "C83",
   "status": "partial",
   "theorems": [
    "C83_placed_partial",
    "C83_returned_partial",
    "C83_refuted"
   ],
   "note": "Byte addresses, the helper structs and the struct layout rules are modelled; any operator new that meets the standard's demands. Partial: buffers of fewer than 2^64 bytes; the full statement is refuted by the wrapping byte count."
  },
  {
   "property": "C84",
   "status": "partial",
   "theorems": [
    "C84_exact_partial",
    "C84_alive_partial",
    "C84_refuted"
   ],
   "note": "Refuted: ~Allocate destroys its base class twice. The exact number of pool users after every history is proved."
  },
  {
   "property": "C85",
   "status": "partial",
   "theorems": [
    "C85_histories_partial",
    "C85_option_ref_partial",
    "C85_result_ref_partial",
    "C85_payload_partial",
    "C85_error_partial",
    "C85_dangling_partial",
    "C85_rebinds",
    "C85_equality_partial",
    "C85_refuted",
    "C85_histories_exact"
   ],
   "note": "False for assignments between variants (C85_refuted: undefined behaviour on unwrap of a Result<T&, E>); all other histories proved, with aliasing, dangling and equality stated separately. C85_histories_exact: every history is carried out, or panics, as it should, or has a first assignment between variants, after which the Result assigned to cannot be used."
  },
  {
   "property": "C86",
   "status": "partial",
   "theorems": [
    "C86_count_partial",
    "C86_call_partial",
    "C86_single_partial",
    "C86_reserved_partial",
    "C86_append_cost",
    "C86_refuted"
   ],
   "note": "Exact number of moves and of buffer requests of every call and every history; amortised bound for adding one element at a time by push_back, emplace_back, insert and emplace among removals and reads; no cost besides shifting within a reserved capacity. Refuted for resize, fill and range insertion used to append (quadratic, for every n); partial because of that."
  },
  {
   "property": "C87",
   "status": "partial",
   "theorems": [
    "C87_walk",
    "C87_prev_outside",
    "C87_both_ends",
    "C87_asked_written",
    "C87_even_steps",
    "C87_ends_iff",
    "C87_is_empty",
    "C87_double_exact",
    "C87_double_whole",
    "C87_double_ends_iff",
    "C87_double_past",
    "C87_double_order",
    "C87_double_nan",
    "C87_double_stuck",
    "C87_refuted"
   ],
   "note": "Index types are given by their operators (functions without side effects); double is IEEE binary64, exactly, with infinities and NaN. Refuted: a range of doubles need not end. Partial because of that; when it ends is characterised for evenly stepped types and for doubles starting from whole numbers up to 2^53."
  },
  {
   "property": "C88",
   "status": "partial",
   "theorems": [
    "C88_nodes_partial",
    "C88_allocator_partial",
    "C88_requests_partial",
    "C88_returned_partial",
    "C88_move_empty_leaves_one",
    "C88_refuted",
    "C88_vec_bytes_partial",
    "C88_vec_blocks_partial",
    "C88_str_blocks_partial"
   ],
   "note": "Refuted as stated: moving an empty list to another allocator leaves a node (C88_move_empty_leaves_one, exactly one). The rest is proved for the histories of C14, C02 and C43 without their defects. For strings the number of buffers is exact here; their sizes are the subject of C91."
  },
  {
   "property": "C89",
   "status": "partial",
   "theorems": [
    "C89_vector",
    "C89_list",
    "C89_readable_partial",
    "C89_readable",
    "C89_kinds",
    "C89_bytes",
    "C89_layout",
    "C89_lines",
    "C89_print_args",
    "C89_refuted",
    "C89_strings_merge"
   ],
   "note": "Refuted for sequences of strings (C89_refuted, C89_strings_merge); everything else is proved in full, strings under the guard of C89_readable_partial. How an integer is written is the standard library's and is part of the specification. Printing a string of exactly 16 bytes is undefined, see C43."
  },
  {
   "property": "C90",
   "status": "partial",
   "theorems": [
    "C90_vector_or_list_partial",
    "C90_forward_to_list_partial",
    "C90_front_breaks",
    "C90_moved_breaks",
    "C90_refuted",
    "C90_histories_exact"
   ],
   "note": "Refuted as stated by the defects of C02 (C90_front_breaks) and C76 (C90_moved_breaks). The positive theorems exclude inserting at the front of a vector or into an empty one, erasing an empty range before the end, sizes that do not fit in memory, and the const front_unchecked; sort and merge appear in the second theorem only."
  },
  {
   "property": "C91",
   "status": "partial",
   "theorems": [
    "C91_blocks_partial",
    "C91_bytes_partial",
    "C91_bound_partial",
    "C91_close_partial",
    "C91_popped",
    "C91_refuted",
    "C91_rooms_exact"
   ],
   "note": "Refuted as stated (a constant factor between memory and contents): C91_popped gives two strings of 17 bytes that hold any amount of memory. The exact accounting and the bounds are proved for the histories of C43 without its defects (strings of exactly 16 bytes, going from 17 to 16 bytes); C91_rooms_exact: the accounting holds for every history in which no call goes wrong."
  },
  {
   "property": "C92",
   "status": "partial",
   "theorems": [
    "C92_slice_partial",
    "C92_array_partial",
    "C92_into_exact",
    "C92_refuted"
   ],
   "note": "Refuted for the owning array iterator (C92_refuted); C92_into_exact says exactly when it keeps the contract. Proved in full for the borrowing iterators."
  },
  {
   "property": "C93",
   "status": "proved",
   "theorems": [
    "C93_histories",
    "C93_balance",
    "C93_throws"
   ],
   "note": "Element operations that throw are counted per call; destructors do not throw. from_iter and the owning iterator are not part of this model."
  }
 ]
}