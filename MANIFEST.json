{
 "claims": [
  {
   "property": "C01",
   "status": "proved",
   "theorems": [
    "C01_number_iff",
    "C01_refcounted_iff",
    "C01_exactly_one_kind",
    "C01_number_has_no_tag",
    "C01_heap_tags_are_refcounted",
    "C01_direct_tags_are_not_refcounted",
    "C01_tag_unique",
    "C01_payload_roundtrip",
    "C01_char_roundtrip",
    "C01_char_width",
    "C01_modifier_and_callable"
   ],
   "note": "all 64-bit patterns; IEEE kinds from a separate spec"
  },
  {
   "property": "C02",
   "status": "proved",
   "theorems": [
    "C02_history_defined",
    "C02_live_disjoint",
    "C02_alloc",
    "C02_free_and_gc",
    "C02_free_removes_one"
   ],
   "note": "arbitrary histories of allocate/free/collect/write for both template instances (MUL 1 and 3); mm_2buddy's shared limit counter is instantiated per half"
  },
  {
   "property": "C03",
   "status": "proved",
   "theorems": [
    "C03_used_exact",
    "C03_no_byte_lost"
   ],
   "note": "used figure equals the live blocks; free lists and live blocks partition the obtained memory"
  },
  {
   "property": "C04",
   "status": "proved",
   "theorems": [
    "C04_limit",
    "C04_failed_request",
    "C04_other_outcomes"
   ],
   "note": "limit on block memory (page padding around chunks is outside of the counted figure); failing requests only collect"
  },
  {
   "property": "C05",
   "status": "proved",
   "theorems": [
    "C05_reachable_survive",
    "C05_exactly_reachable"
   ],
   "note": "all finite graphs, top-level and nested collections; object types that run code when freed are outside of the model"
  },
  {
   "property": "C06",
   "status": "proved",
   "theorems": [
    "C06_garbage_freed"
   ],
   "note": "all finite graphs, top-level and nested collections"
  },
  {
   "property": "C07",
   "status": "proved",
   "theorems": [
    "C07_encode_is_rfc3629",
    "C07_utf8_roundtrip",
    "C07_utf8_length",
    "C07_utf16_units_roundtrip",
    "C07_utf16_chars_roundtrip",
    "C07_utf16_length",
    "C07_utf16_decode_size"
   ],
   "note": "UTF-8 for all code points < 2^21, UTF-16 both directions"
  },
  {
   "property": "C08",
   "status": "partial",
   "theorems": [
    "C08_decode_accepts_partial",
    "C08_valid_is_accepted",
    "C08_invalid_accepted_refuted",
    "C08_overlong_accepted_refuted",
    "C08_out_of_range_accepted_refuted"
   ],
   "note": "strict validation is refuted (malformed continuation, overlong, out of range accepted); acceptance characterised exactly and in-bounds reads proved"
  },
  {
   "property": "C09",
   "status": "proved",
   "theorems": [
    "C09_history",
    "C09_history_distinct_hashes",
    "C09_create_duplicates_rejected",
    "C09_create_succeeds",
    "C09_failed_get_delete_change_nothing",
    "C09_failed_set_leaves_map_usable_refuted"
   ],
   "note": "every history when allocations succeed; a Set throws only at >=2^27-32 keys or with clustered hashes; leaving the map usable after a failed Set is refuted"
  },
  {
   "property": "C10",
   "status": "proved",
   "theorems": [
    "C10_finite_map",
    "C10_tiny_table_refuted"
   ],
   "note": "the hash table template used for interning; initial sizes 2^j with j>=2 as at every use; the template has no delete; smaller initial tables would not terminate (refuted)"
  },
  {
   "property": "C11",
   "status": "partial",
   "theorems": [
    "C11_match_hash",
    "C11_match_hashP",
    "C11_appended_empty_refuted"
   ],
   "note": "proved for every pair of matching values whose cached flags are true; refuted for a reachable list (appending to an empty flagged list keeps the squeezed flag)"
  },
  {
   "property": "C12",
   "status": "proved",
   "theorems": [
    "C12_copy_exact",
    "C12_fill_exact",
    "C12_fill_stays_in_array_refuted",
    "C12_set_get"
   ],
   "note": "bit copy for every alignment (source readable one word around it), fill for every range; a fill ending on a word boundary touches the next word (refuted in-bounds claim)"
  },
  {
   "property": "C13",
   "status": "proved",
   "theorems": [
    "C13_find_first",
    "C13_has_iff_in",
    "C13_sum_counts",
    "C13_isSorted_iff",
    "C13_negate",
    "C13_tail_words"
   ],
   "note": "find, has, sum, isSorted, negate, tail words for every offset and length"
  },
  {
   "property": "C14",
   "status": "proved",
   "theorems": [
    "C14_squeeze_any",
    "C14_squeeze_num",
    "C14_squeeze_chr",
    "C14_convert"
   ],
   "note": "all element types and conversions, portable loops; (i32)double modelled with an arbitrary result outside of the i32 range; empty arrays keep any type (as coded)"
  },
  {
   "property": "C15",
   "status": "proved",
   "theorems": [
    "C15_compare_defined",
    "C15_compare_refl",
    "C15_compare_antisym",
    "C15_compare_trans",
    "C15_compare_zero_iff_same",
    "C15_compare_atoms",
    "C15_compare_lists",
    "C15_compare_other_errors"
   ],
   "note": "compare/compareF on plain data (numbers, characters, arrays of them at any depth): defined, three-valued, reflexive, antisymmetric, transitive, 0 exactly on equal data (NaN equals NaN here), atom order and list order as documented. Non-data atoms give an error. The pointer-equality shortcut (returns 0) is not modelled; it agrees with reflexivity."
  },
  {
   "property": "C16",
   "status": "proved",
   "theorems": [
    "C16_match_exact",
    "C16_match_ignores_representation",
    "C16_match_refl",
    "C16_match_sym",
    "C16_match_trans",
    "C16_indistinguishable_exact",
    "C16_match_refl_refuted"
   ],
   "note": "equal and eequal with all typed kernels (portable versions) on plain data stored as bits, i8..f64, c8..c32 or boxed. A value that contains NaN does not match itself (refuted witness given), so reflexivity carries the NaN condition; eequal is exactly equality of data. Comparison of functions (atomEqualF) is not modelled."
  },
  {
   "property": "C17",
   "status": "proved",
   "theorems": [
    "C17_sort_ints",
    "C17_sort_bits",
    "C17_sort"
   ],
   "note": "every element type and algorithm (insertion, counting, radix, bit, merge), any contents of fresh memory; lists up to 2^32 elements (usz); sorted-flag shortcut and cells of higher rank not modelled"
  },
  {
   "property": "C18",
   "status": "proved",
   "theorems": [
    "C18_grade",
    "C18_grading_unique"
   ],
   "note": "every element type and algorithm (bit, radix, bucket, permutation inverse, merge); lists below 2^31 elements (the code refuses longer ones); the result is unique (C18_grading_unique)"
  },
  {
   "property": "C19",
   "status": "proved",
   "theorems": [
    "C19_bins",
    "C19_unsorted_errors",
    "C19_insertion"
   ],
   "note": "portable (non-Singeli) paths for every pair of element types; unsorted lists error; insertion-point characterisation"
  },
  {
   "property": "C20",
   "status": "partial",
   "theorems": [
    "C20_index_of_partial",
    "C20_member_of_partial",
    "C20_progressive_index_of_partial",
    "C20_representation_independent",
    "C20_long_list_refuted"
   ],
   "note": "index-of, member-of and progressive index-of on lists of fewer than 2^31 elements, all storage paths; w (x for member-of) of higher rank not modelled; at 2^31 elements refuted"
  },
  {
   "property": "C21",
   "status": "partial",
   "theorems": [
    "C21_mark_firsts_partial",
    "C21_occurrence_count_partial",
    "C21_classify_partial",
    "C21_deduplicate_partial",
    "C21_classify_length_refuted"
   ],
   "note": "Proved for lists: Mark Firsts, Occurrence Count (up to 2^31 elements, an error beyond), Classify (fewer than 2^31 elements, an error beyond 2^31, and a counterexample at exactly 2^31), Deduplicate. Missing: arguments of higher rank."
  },
  {
   "property": "C22",
   "status": "proved",
   "theorems": [
    "C22_indices",
    "C22_where_block",
    "C22_replicate_list",
    "C22_replicate_empty",
    "C22_replicate_constant",
    "C22_replicate_bits_by_bits",
    "C22_replicate_bits_list",
    "C22_replicate_bits_empty",
    "C22_replicate_bits_constant",
    "C22_replicate_no_elements",
    "C22_replicate_no_elements_constant"
   ],
   "note": "Indices and Replicate for every stored form of counts and cells, single bits by counts and by one number, cells without elements, and exactly the errors; the element count of the result is C38. 𝕨 a list of lists is done by the BQN runtime, not this code"
  },
  {
   "property": "C23",
   "status": "proved",
   "theorems": [
    "C23_counts",
    "C23_error",
    "C23_safe",
    "C23_cast_refuted",
    "C23_undoes",
    "C23_roundtrip"
   ],
   "note": "Counts for every storage of the argument, errors for everything else, undoing Indices; sizes as the 32-bit build allows. The cast of 2^32 to the size type is assumed to give 0 for the safety theorem and refuted otherwise (F29)."
  },
  {
   "property": "C24",
   "status": "partial",
   "theorems": [
    "C24_select_cells",
    "C24_select_bits",
    "C24_selection_meaning",
    "C24_empty_cells_refuted"
   ],
   "note": "proved for an array of numbers as 𝕨, any storage of both arguments, cells with elements; refuted for cells without elements; compound 𝕨 (select_depth2) and the axis-0 cell copying routines (cf_call, slices) are not modelled"
  },
  {
   "property": "C25",
   "status": "partial",
   "theorems": [
    "C25_group_partial",
    "C25_group_large_refuted"
   ],
   "note": "All methods of Group with a list of integers give exactly the specified groups for fewer than 2^31 cells; refuted above that (32-bit run lengths). Nested 𝕨 is missing."
  },
  {
   "property": "C26",
   "status": "proved",
   "theorems": [
    "C26_transpose",
    "C26_transpose_inverse",
    "C26_transpose_undo",
    "C26_reorder",
    "C26_reorder_unique",
    "C26_reorder_number",
    "C26_reorder_undo",
    "C26_reorder_number_undo",
    "C26_under",
    "C26_two_rows_of_bits"
   ],
   "note": "All shapes, axis lists and methods of the portable code; SIMD/PDEP kernels are not modelled. Two-row bits are proved word by word in C26_two_rows_of_bits."
  },
  {
   "property": "C27",
   "status": "partial",
   "theorems": [
    "C27_history_partial",
    "C27_history_freed_partial"
   ],
   "note": "Histories over heap of lists with reference counts, slices, in-place Take/Join/append/replace; other in-place reusing functions not modelled"
  },
  {
   "property": "C28",
   "status": "proved",
   "theorems": [
    "C28_array_array",
    "C28_number_array",
    "C28_array_number",
    "C28_integers_exact",
    "C28_monadic",
    "C28_modulus",
    "C28_modulus_arrays",
    "C28_floor_division",
    "C28_character_overflow_refuted",
    "C28_character_add_partial"
   ],
   "note": "Storage widths never show for + - × ∧ ∨ ⌊ ⌈, - | × ¬, modulus and floored quotient on whole numbers, any mix of storage; refuted for characters plus integers (undefined signed overflow). Fractions, infinities, the sign of zero and rank-extended arguments are not modelled."
  },
  {
   "property": "C29",
   "status": "proved",
   "theorems": [
    "C29_operand_stack",
    "C29_reserved_enough",
    "C29_exact_reserve_refuted",
    "C29_handmade_refuted"
   ],
   "note": "for bytecode of the shape the compiler emits; handmade bytecode without a terminating instruction and the exactness of the reservation are refuted"
  },
  {
   "property": "C30",
   "status": "proved",
   "theorems": [
    "C30_variables",
    "C30_no_placeholder",
    "C30_field_read_refuted"
   ],
   "note": "all execution trees without field reads; targets of the form [...] not modelled. For field reads the claim is false: C30_field_read_refuted"
  },
  {
   "property": "C31",
   "status": "proved",
   "theorems": [
    "C31_catch_restores",
    "C31_program_balanced"
   ],
   "note": "stacks, catch frames and current error after a throw reaches a catch, for all nestings of calls, pushes, catches and rethrows"
  },
  {
   "property": "C32",
   "status": "proved",
   "theorems": [
    "C32_fields",
    "C32_interning"
   ],
   "note": "interning, descriptors, field reads, spreads with cached positions and stores over any history; identifiers are unbounded integers in the model"
  },
  {
   "property": "C33",
   "status": "partial",
   "theorems": [
    "C33_visits_all",
    "C33_large_extension_refuted",
    "C33_many_blocks_refuted"
   ],
   "note": "proved for fewer than 32768 variables added in the REPL; false beyond that, and for blocks with 65536 or more directly nested blocks (refuted theorems)"
  },
  {
   "property": "C34",
   "status": "partial",
   "theorems": [
    "C34_join_list",
    "C34_join_rank_refuted",
    "C34_join_to",
    "C34_join_to_length_refuted",
    "C34_merge",
    "C34_first",
    "C34_pick",
    "C34_pick_storage_refuted",
    "C34_take_number",
    "C34_take_number_error",
    "C34_take",
    "C34_take_error",
    "C34_take_length_refuted",
    "C34_take_length_list_refuted",
    "C34_drop_number",
    "C34_drop",
    "C34_drop_lowest_refuted",
    "C34_drop_huge_refuted",
    "C34_rotate",
    "C34_rotate_error",
    "C34_rotate_undo",
    "C34_reverse",
    "C34_reverse_twice",
    "C34_reverse_bits",
    "C34_shift",
    "C34_shift_error",
    "C34_shift_in",
    "C34_shift_in_error",
    "C34_affixes",
    "C34_reshape_repeats",
    "C34_reshape_repeats_error",
    "C34_reshape_one_int",
    "C34_reshape_one_float",
    "C34_reshape_one_char",
    "C34_reshape_shape",
    "C34_reshape",
    "C34_reshape_bits"
   ],
   "note": "Reshape, Take, Drop, Prefixes, Suffixes, Rotate, Reverse, shifts, Join of a list, Join To, Merge, First and Pick proved index by index, with their errors; refuted corner cases F25-F28, F33-F35. Missing: Join of arrays of rank 2 and more, and the Under with Rotate and Reverse (Take, Drop and Reshape: C49)."
  },
  {
   "property": "C35",
   "status": "partial",
   "theorems": [
    "C35_fold",
    "C35_fold_initial_partial",
    "C35_fold_negate_overflow_refuted",
    "C35_sum_exact",
    "C35_scan",
    "C35_scan_initial"
   ],
   "note": "Fold and Scan over lists of whole numbers, with and without initial value, equal the recursion for arithmetic, comparison, ⊣ and ⊢ operands; one signed overflow in Fold is a refutation. Higher ranks and Insert are not covered."
  },
  {
   "property": "C36",
   "status": "partial",
   "theorems": [
    "C36_cast",
    "C36_cast_errors",
    "C36_cast_size_refuted",
    "C36_widen_zero_pads",
    "C36_widen_narrow_roundtrip"
   ],
   "note": "cell widening/narrowing round trip proved for all sizes on the portable path; •bit._cast keeps all bits, errors exact and both inverses give back the argument while the result has fewer than 2^32 elements; refuted beyond (F37)"
  },
  {
   "property": "C37",
   "status": "partial",
   "theorems": [
    "C37_sorted_mark_partial",
    "C37_sorted_mark_cleared_partial",
    "C37_pick_under_refuted"
   ],
   "note": "Sorted mark set by Sort and order test, kept by Take, dropped by others; false for replacing under pick (F24); marks set by other functions not modelled"
  },
  {
   "property": "C38",
   "status": "partial",
   "theorems": [
    "C38_widen_result_size_refuted",
    "C38_join_sizes",
    "C38_join_refuted",
    "C38_reshape_floor_refuted",
    "C38_replicate_list_overflow_refuted",
    "C38_replicate_constant_overflow_refuted"
   ],
   "note": "widening, Replicate, Reshape with a floor axis and Join of a list: refuted with witnesses (F6, F11, F25, F32); Reshape otherwise, Join To and Merge proved, Join as long as the size fits 32 bits; other allocations not covered"
  },
  {
   "property": "C39",
   "status": "proved",
   "theorems": [
    "C39_timsort_stable",
    "C39_stable_unique",
    "C39_boxed_sort"
   ],
   "note": "TimsortThm.v: for every comparison and every list; the boxed instance uses the modelled comparison of values"
  },
  {
   "property": "C40",
   "status": "proved",
   "theorems": [
    "C40_roundtrip",
    "C40_injective",
    "C40_zero",
    "C40_integer",
    "C40_special"
   ],
   "note": "Every finite number other than zero prints as a numeral that •ParseFloat turns back into exactly the same bits; both zeros print as 0; whole numbers below 10^15 print as plain digits; infinities and NaN have fixed texts."
  },
  {
   "property": "C41",
   "status": "partial",
   "theorems": [
    "C41_gcd",
    "C41_lcm_partial",
    "C41_lcm_overflow_refuted"
   ],
   "note": "GCD exact and representable; LCM exact below 2^64, refuted beyond."
  },
  {
   "property": "C42",
   "status": "proved",
   "theorems": [
    "C42_parse_rounds",
    "C42_parse_accepts",
    "C42_parse_long",
    "C42_18_digits_refuted",
    "C42_trailing_zero_refuted"
   ],
   "note": "Every numeral of at most 17 digits rounds to the nearest double; exactly the numerals are accepted; no undefined execution. Texts of 2^20 characters or more are rejected. Beyond 17 digits refuted (F30)."
  },
  {
   "property": "C43",
   "status": "partial",
   "theorems": [
    "C43_operand",
    "C43_unary_partial",
    "C43_binary_partial",
    "C43_binary_shapes",
    "C43_size_refuted",
    "C43_mul_refuted"
   ],
   "note": "all operations proved bit for bit and group for group with exact error cases for fewer than 2^32 bits of data; refuted at 2^32 bits (F36) and for overflowing 32- and 64-bit _mul (F38)"
  },
  {
   "property": "C44",
   "status": "partial",
   "theorems": [
    "C44_session_partial",
    "C44_deal",
    "C44_deal_some",
    "C44_subset",
    "C44_errors",
    "C44_rank",
    "C44_range_one_refuted",
    "C44_range_size_refuted"
   ],
   "note": "Deal, Deal with a count and Subset: proved in full for every state. Range: proved for limits up to 2^53 and results of less than 2^32 bytes; refuted beyond (F39, F40). C44_session_partial: every sequence of calls. Not modelled: out of memory, reading arguments."
  },
  {
   "property": "C45",
   "status": "proved",
   "theorems": [
    "C45_each",
    "C45_each_pairs",
    "C45_each_error",
    "C45_table",
    "C45_table_error",
    "C45_repeat",
    "C45_repeat_pure",
    "C45_repeat_error"
   ],
   "note": "any operand with any effects; result fills are not modelled"
  },
  {
   "property": "C46",
   "status": "partial",
   "theorems": [
    "C46_rank_partial",
    "C46_cells_partial",
    "C46_rank2_partial",
    "C46_cells2_partial",
    "C46_frames_error",
    "C46_cells_frames_error",
    "C46_operand_error",
    "C46_primitives",
    "C46_select",
    "C46_deshape_refuted",
    "C46_couple_refuted",
    "C46_select_refuted",
    "C46_many_cells_refuted"
   ],
   "note": "Every operand, argument, rank operand and special case modelled, as long as there are cells and fewer than 2^32 of them. Missing: arguments with no cells, where the result comes from fills; the special cases for arithmetic, folds, scans, insert, transpose and nested Cells. False, with witnesses: results of rank 256 from Deshape, Couple and Select are not refused; 2^32 or more empty cells are miscounted."
  },
  {
   "property": "C47",
   "status": "partial",
   "theorems": [
    "C47_writes",
    "C47_append",
    "C47_merge",
    "C47_merge_error",
    "C47_merge_rank",
    "C47_merge_fill_partial",
    "C47_merge_fill_refuted",
    "C47_unit_fill_refuted"
   ],
   "note": "contents proved for all histories of writes and appends; the fill is exact except for empty pieces and unit arrays of values (refuted there); the single-append case is not modelled"
  },
  {
   "property": "C48",
   "status": "partial",
   "theorems": [
    "C48_range_number",
    "C48_range_list",
    "C48_range_error",
    "C48_windows_partial",
    "C48_windows_none",
    "C48_windows_error",
    "C48_windows_axis_refuted",
    "C48_windows_pairs_refuted",
    "C48_shape",
    "C48_find_partial",
    "C48_find_wrap_refuted",
    "C48_find_empty_refuted"
   ],
   "note": "Range and Shape exact for every argument, with all errors. Windows exact except axes of length 2^32-1 and 2↕ of 2^31 or more elements (refuted there, F46). Find: all cases done in C exact, with results that fit (refuted otherwise, F47); operands of mixed or nested elements and higher ranks are handed to BQN code that is not modelled."
  },
  {
   "property": "C49",
   "status": "partial",
   "theorems": [
    "C49_select_partial",
    "C49_select_refused_refuted",
    "C49_select_conflict_refuted",
    "C49_replicate",
    "C49_take_partial",
    "C49_drop_partial",
    "C49_take_atom_refuted",
    "C49_take_lowest_refuted",
    "C49_deshape",
    "C49_reshape",
    "C49_first",
    "C49_pick",
    "C49_pick_number",
    "C49_pick_many"
   ],
   "note": "Select (cells below 256 bytes, F48), Replicate, Take and Drop (one number above the lowest, atoms become lists: F49), Deshape, Reshape, First and Pick: exact for every operand, argument and initial memory. Missing: compound 𝕨 of Select, Take, Drop and Replicate of higher rank, which fall back to the BQN runtime."
  },
  {
   "property": "C50",
   "status": "proved",
   "theorems": [
    "C50_compares_every_pair",
    "C50_storage_makes_no_difference",
    "C50_bit_at_every_place"
   ],
   "note": "All arguments: result of every pair of atoms, errors exactly where there is none, storage irrelevant. Fills of empty results and SIMD code are not modelled."
  },
  {
   "property": "C51",
   "status": "partial",
   "theorems": [
    "C51_bytes_read",
    "C51_lines_read",
    "C51_lines_of_text",
    "C51_text_roundtrip_partial",
    "C51_lines_roundtrip_partial",
    "C51_not_text",
    "C51_bytes_roundtrip_partial",
    "C51_full_disk_refuted",
    "C51_stream_error_refuted",
    "C51_wide_byte_refuted",
    "C51_name",
    "C51_parent",
    "C51_at",
    "C51_name_at_parent"
   ],
   "note": "Reading, line splitting and path functions in full; the round trips under the condition that closing a file stores what was written, without which they are refuted (F50); F51 and F52 refuted. Directory listing, mmap, rename and Windows paths are not modelled."
  },
  {
   "property": "C52",
   "status": "proved",
   "theorems": [
    "C52_acts_on_every_number",
    "C52_defined",
    "C52_storage_makes_no_difference",
    "C52_negation_undone",
    "C52_idempotent",
    "C52_not_nearest",
    "C52_floor_ceiling"
   ],
   "note": "All of + - | ⌊ ⌈ × ¬ of one argument, on every value and double; the sign of a zero is not part of a value (C16). ÷ and √ are not modelled. Fills are left out."
  },
  {
   "property": "C53",
   "status": "proved",
   "theorems": [
    "C53_prototype",
    "C53_prototype_of_prototype",
    "C53_storage_makes_no_difference",
    "C53_same_fill",
    "C53_with_fill",
    "C53_without_fill",
    "C53_exact_fill_refuted",
    "C53_common_fill",
    "C53_one_item",
    "C53_empty",
    "C53_empty_with_fill",
    "C53_empty_any_shape"
   ],
   "note": "asFill, withFill, fillEqual, fill_both, m_unit/m_vec1, emptyVec on all values nested to any depth, in every storage. Attaching the very fill asked for (with the fills inside it) is refuted: empty arrays of a shape count as one fill (C53_exact_fill_refuted, F53)."
  },
  {
   "property": "C54",
   "status": "partial",
   "theorems": [
    "C54_calls",
    "C54_calls_return",
    "C54_calls_as_defined_partial",
    "C54_calls_return_partial",
    "C54_one_meaning",
    "C54_earlier_calls_invisible",
    "C54_modifier_operand_refuted"
   ],
   "note": "Soundness, completeness and independence of earlier calls for all nestings, effects and errors. With the definitions of BQN except for 3-trains of a modifier and two functions, where the claim is refuted (C54_modifier_operand_refuted, F54); C54_calls and C54_calls_return hold for these too, with the definition as it is implemented."
  }
 ]
}