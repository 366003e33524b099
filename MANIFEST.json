{
 "claims": [
  {
   "property": "C01",
   "status": "proved",
   "theorems": [
    "C01_countl_zero",
    "C01_countl_one",
    "C01_leading_unique",
    "C01_bit_width"
   ],
   "note": "Both the portable and the intrinsic implementation, every width including the 128-bit split; the compiler builtins are modelled by their documented contracts."
  },
  {
   "property": "C02",
   "status": "proved",
   "theorems": [
    "C02_countr_zero",
    "C02_countr_one",
    "C02_trailing_divides",
    "C02_trailing_unique"
   ],
   "note": ""
  },
  {
   "property": "C03",
   "status": "proved",
   "theorems": [
    "C03_popcount",
    "C03_has_single_bit"
   ],
   "note": ""
  },
  {
   "property": "C04",
   "status": "proved",
   "theorems": [
    "C04_bit_floor"
   ],
   "note": ""
  },
  {
   "property": "C05",
   "status": "proved",
   "theorems": [
    "C05_bit_ceil",
    "C05_bit_ceil_unrepresentable"
   ],
   "note": "Statement includes the unrepresentable case, characterised by C05_bit_ceil_unrepresentable."
  },
  {
   "property": "C06",
   "status": "proved",
   "theorems": [
    "C06_byte_reverse",
    "C06_byte_reverse_involutive"
   ],
   "note": ""
  },
  {
   "property": "C07",
   "status": "proved",
   "theorems": [
    "C07_bit_fill_right",
    "C07_bit_fill_right_value",
    "C07_bit_fill_left",
    "C07_bit_fill_left_value"
   ],
   "note": ""
  },
  {
   "property": "C08",
   "status": "proved",
   "theorems": [
    "C08_bit_pack",
    "C08_bit_pack_recover",
    "C08_bit_pack_injective",
    "C08_bit_pack_auto"
   ],
   "note": ""
  },
  {
   "property": "C09",
   "status": "partial",
   "theorems": [
    "C09_byte_select_static",
    "C09_byte_select_partial",
    "C09_byte_select_beyond_partial",
    "C09_byte_select_at_size",
    "C09_byte_select_refuted",
    "C09_swizzle"
   ],
   "note": "The template-index form and byte_swizzle are proved in full. The run-time form returns 0 beyond the last byte only where the shift is defined: an index equal to sizeof(T) shifts by the full width (undefined for 32-bit and wider types), see C09_byte_select_refuted."
  },
  {
   "property": "C10",
   "status": "proved",
   "theorems": [
    "C10_apply_alignment",
    "C10_round_up_least",
    "C10_apply_alignment_idempotent"
   ],
   "note": ""
  },
  {
   "property": "C11",
   "status": "proved",
   "theorems": [
    "C11_clamp",
    "C11_clamp_nearest",
    "C11_clamp_idempotent",
    "C11_clamp_monotone"
   ],
   "note": ""
  },
  {
   "property": "C12",
   "status": "proved",
   "theorems": [
    "C12_min",
    "C12_max"
   ],
   "note": ""
  },
  {
   "property": "C13",
   "status": "partial",
   "theorems": [
    "C13_between_partial",
    "C13_between_exact_partial",
    "C13_values",
    "C13_types",
    "C13_between_refuted"
   ],
   "note": "The code violates the statement: with an unsigned value at least as wide as int and signed bounds no wider than it, a negative lower bound makes the answer false (C13_between_refuted). C13_between_partial gives the exact behaviour for all types; C13_between_exact_partial the statement wherever the mix is safe or the lower bound is non-negative."
  },
  {
   "property": "C14",
   "status": "proved",
   "theorems": [
    "C14_hex_to_dec",
    "C14_dec_to_hex",
    "C14_byte_to_hex"
   ],
   "note": ""
  },
  {
   "property": "C15",
   "status": "proved",
   "theorems": [
    "C15_make",
    "C15_contains",
    "C15_contains_range",
    "C15_intersects",
    "C15_adjacent",
    "C15_intersects_or_adjacent",
    "C15_union_hull",
    "C15_union_exact",
    "C15_intersects_empty_refuted"
   ],
   "note": "For non-empty ranges, as the statement says; C15_intersects_empty_refuted shows why the restriction is needed."
  },
  {
   "property": "C16",
   "status": "partial",
   "theorems": [
    "C16_whitespace_partial",
    "C16_whitespace_refuted"
   ],
   "note": "Refuted on 374 code units (U+160B..16C8 but for U+1680, U+2F47..2FFF) where the function reaches MUU_UNREACHABLE; everywhere else the answer is the White_Space property of Unicode 15 (C16_whitespace_partial). The undefined set is exact."
  },
  {
   "property": "C17",
   "status": "partial",
   "theorems": [
    "C17_hyphen_partial",
    "C17_hyphen_refuted"
   ],
   "note": "Refuted: undefined for U+00AE..08A2 but for U+058A and five more stretches (so for every accented Latin, Greek, Cyrillic, Hebrew and Arabic letter); exact set in C17_hyphen_refuted. Everywhere else the answer is the Hyphen property."
  },
  {
   "property": "C18",
   "status": "partial",
   "theorems": [
    "C18_letter",
    "C18_number",
    "C18_combining_mark",
    "C18_digits",
    "C18_case_partial",
    "C18_case_refuted"
   ],
   "note": "Letters, numbers, combining marks and digits proved for all 2^32 values. Case is right only up to U+FFFF (the generator drops properties of code points with five digits) and is_uppercase(U+2182) is undefined (C18_case_refuted)."
  },
  {
   "property": "C19",
   "status": "partial",
   "theorems": [
    "C19_classes",
    "C19_code_points_partial",
    "C19_code_points_refuted"
   ],
   "note": "Proved for all 29 character classes. is_code_point and is_code_point_boundary differ on surrogates, which the 32-bit versions accept (C19_code_points_refuted)."
  },
  {
   "property": "C20",
   "status": "proved",
   "theorems": [
    "C20_utf8_decoder_accepts_exactly_wellformed",
    "C20_utf8_decoder_error_exact",
    "C20_utf8_decoder_values"
   ],
   "note": ""
  },
  {
   "property": "C21",
   "status": "partial",
   "theorems": [
    "C21_encode_decode_partial",
    "C21_needs_all_bytes_partial",
    "C21_sequences_partial",
    "C21_encode_nul_refuted"
   ],
   "note": "Every scalar value but U+0000, and every sequence of them. The code violates the statement for U+0000, whose encoding comes out empty (C21_encode_nul_refuted)."
  },
  {
   "property": "C22",
   "status": "partial",
   "theorems": [
    "C22_utf16_bmp_partial",
    "C22_utf16_supplementary_exact_partial",
    "C22_utf16_decoder_refuted"
   ],
   "note": "The code violates the statement: the decoder never accepts a surrogate pair (C22_utf16_decoder_refuted). C22_utf16_bmp_partial and C22_utf16_supplementary_exact_partial together cover all inputs: exactly the sequences within the basic multilingual plane decode."
  },
  {
   "property": "C23",
   "status": "proved",
   "theorems": [
    "C23_utf_decode_forward",
    "C23_positions_are_slices",
    "C23_utf_decode_bom"
   ],
   "note": "Any callback, stopping or not. utf_decode is modelled for all string types; C23 is about UTF-8."
  },
  {
   "property": "C24",
   "status": "proved",
   "theorems": [
    "C24_utf_decode_reverse",
    "C24_utf_decode_reverse_bom"
   ],
   "note": ""
  },
  {
   "property": "C25",
   "status": "partial",
   "theorems": [
    "C25_bom_partial",
    "C25_bom_reverse_partial",
    "C25_wide_exact_partial",
    "C25_utf32_native_partial",
    "C25_utf16_native_partial",
    "C25_native_refuted",
    "C25_native32_refuted"
   ],
   "note": "With a byte order mark: proved for UTF-32 and for UTF-16 within the basic multilingual plane; surrogate pairs are never combined (C22). Without a mark the code violates the statement (C25_native_refuted, C25_native32_refuted); C25_wide_exact_partial gives the exact behaviour for every string, C25_utf32_native_partial and C25_utf16_native_partial the inputs decoded as-is."
  },
  {
   "property": "C26",
   "status": "partial",
   "theorems": [
    "C26_from_utf8_partial",
    "C26_same",
    "C26_from_utf32_partial",
    "C26_from_utf16_partial",
    "C26_roundtrip_8_32_partial",
    "C26_roundtrip_8_16_partial",
    "C26_nul_refuted",
    "C26_surrogates_refuted"
   ],
   "note": "The code violates the statement for U+0000 to UTF-8/16 (C26_nul_refuted), surrogate pairs from UTF-16 (C26_surrogates_refuted) and where the byte order guess of C25 is wrong; proved for everything else."
  },
  {
   "property": "C27",
   "status": "partial",
   "theorems": [
    "C27_trim_left_partial",
    "C27_trim_right_partial",
    "C27_trim_partial",
    "C27_trim_bom_partial",
    "C27_trim_idempotent_partial",
    "C27_trim_idempotent_refuted",
    "C27_maximal"
   ],
   "note": "Proved for any whitespace predicate, on all UTF-8 text. The code violates idempotence when the trimmed text starts with U+FEFF (C27_trim_idempotent_refuted); everything else in the statement holds. C121 proves the same with the library's own whitespace predicate, for every character type."
  },
  {
   "property": "C28",
   "status": "proved",
   "theorems": [
    "C28_sha1_fips",
    "C28_process_block"
   ],
   "note": "Both machine byte orders; below 2^38 bytes as the property says (32-bit block counter)."
  },
  {
   "property": "C29",
   "status": "proved",
   "theorems": [
    "C29_sha1_chunking"
   ],
   "note": "No length bound; the contents of the uninitialised block buffer do not matter either."
  },
  {
   "property": "C30",
   "status": "proved",
   "theorems": [
    "C30_sha1_frozen",
    "C30_sha1_finish_total"
   ],
   "note": "The whole state is unchanged by any later call, including wide strings."
  },
  {
   "property": "C31",
   "status": "proved",
   "theorems": [
    "C31_fnv1a",
    "C31_fnv1a_chunking"
   ],
   "note": ""
  },
  {
   "property": "C32",
   "status": "partial",
   "theorems": [
    "C32_fnv1a_wide_partial",
    "C32_surrogates_refuted",
    "C32_native_refuted"
   ],
   "note": "Proved for UTF-32, and for UTF-16 text without surrogate pairs, with a byte order mark in either order or when recognised as native; refuted for surrogate pairs and for native text taken for byte-swapped."
  },
  {
   "property": "C33",
   "status": "partial",
   "theorems": [
    "C33_print",
    "C33_round_trip",
    "C33_case_and_braces",
    "C33_case_insensitive",
    "C33_round_trip_wide",
    "C33_round_trip_wide_big_endian_refuted"
   ],
   "note": "proved for strings of char on every platform, and for wide strings on little-endian machines or after a byte order mark; on a big-endian machine the round trip through wide strings without a mark fails for every uuid (C33_round_trip_wide_big_endian_refuted)"
  },
  {
   "property": "C34",
   "status": "partial",
   "theorems": [
    "C34_parse_exact",
    "C34_digits",
    "C34_parse_exact_wide",
    "C34_parse_total",
    "C34_malformed_refuted"
   ],
   "note": "exact characterisation of the accepted strings for every character size, and no undefined behaviour; the claim that any malformed string is rejected is refuted: a UTF-8 sequence broken off at the end of the string is overlooked (C34_malformed_refuted)"
  },
  {
   "property": "C35",
   "status": "proved",
   "theorems": [
    "C35_generate",
    "C35_named",
    "C35_named_version",
    "C35_accessors"
   ],
   "note": "generate() is modelled on the non-Windows branch with the random numbers as input"
  },
  {
   "property": "C36",
   "status": "partial",
   "theorems": [
    "C36_compare",
    "C36_total_order",
    "C36_equality",
    "C36_uint128",
    "C36_fields",
    "C36_accessors",
    "C36_big_endian_refuted"
   ],
   "note": "proved on little-endian machines, and for compare, equality and the integer view on big-endian ones when bit_cast or no 128-bit integer is used; the field constructor, node() and the packed integer view are wrong on big-endian machines (C36_big_endian_refuted)"
  },
  {
   "property": "C37",
   "status": "partial",
   "theorems": [
    "C37_history",
    "C37_separate",
    "C37_object",
    "C37_equality",
    "C37_can_store",
    "C37_can_store_tag",
    "C37_signed_tag_refuted",
    "C37_checks_refuted",
    "C37_can_store_object",
    "C37_big_endian_refuted"
   ],
   "note": "Proved over every history of construct/assign/set/clear for aligned pointers and non-negative tags that fit the tag area. A negative tag of a signed type that can_store_tag accepts overwrites the pointer (C37_signed_tag_refuted), and the documented checks miss some bad inputs (C37_checks_refuted)."
  },
  {
   "property": "C38",
   "status": "proved",
   "theorems": [
    "C38_half_to_float"
   ],
   "note": "All 65536 patterns; software conversion (F16C branch not modelled)."
  },
  {
   "property": "C39",
   "status": "partial",
   "theorems": [
    "C39_normal_partial",
    "C39_representable_partial",
    "C39_round_trip_partial",
    "C39_special_partial",
    "C39_overflow_refuted",
    "C39_small_refuted",
    "C39_halved_refuted"
   ],
   "note": "Proved for normals, zeros, infinities, NaNs, subnormal floats and [65536,131072). Refuted elsewhere: every subnormal half fails the round trip, floats in [131072,262144) become tiny negative numbers, [2^-16,2^-15) becomes minus infinity or NaN, [2^-15,2^-14) is halved."
  },
  {
   "property": "C40",
   "status": "proved",
   "theorems": [
    "C40_refinement",
    "C40_no_leak",
    "C40_move_keeps_values",
    "C40_iterate_unallocated_refuted"
   ],
   "note": "Refinement of a heap-and-lifetime model for every program over any number of arrays, with throwing constructors, for trivially destructible and other element types. Reading back by iteration needs a non-zero capacity: begin() of an array without storage is declared non-null and is undefined (C40_iterate_unallocated_refuted). Allocation failure and overflow of sizeof(T)*capacity are assumed away."
  },
  {
   "property": "C41",
   "status": "partial",
   "theorems": [
    "C41_queries_partial",
    "C41_empty_refuted",
    "C41_order_refuted"
   ],
   "note": "size, element access, front, back and equality proved; empty() is inverted (C41_empty_refuted) and the ordering operators cannot be evaluated for different arrays (C41_order_refuted; as written is_less does not even compile)."
  },
  {
   "property": "C42",
   "status": "partial",
   "theorems": [
    "C42_contents_partial",
    "C42_self_assign_partial",
    "C42_self_assign_stale",
    "C42_self_assign_refuted",
    "C42_assign_part_refuted",
    "C42_copy_alignment_refuted"
   ],
   "note": "Proved for every program over any number of blobs that does not assign a blob from its own bytes: contents, common prefix on resize, promised alignment, no use after free, no leak. Missing because the code violates it: self copy-assignment after growing past 2048 bytes frees before it reads (C42_self_assign_stale, C42_self_assign_refuted), assigning part of a blob to itself does too (C42_assign_part_refuted); copy assignment does not lower the alignment to the source as documented (C42_copy_alignment_refuted). Allocation failure is assumed away."
  },
  {
   "property": "C43",
   "status": "partial",
   "theorems": [
    "C43_construct",
    "C43_first",
    "C43_last",
    "C43_subspan_partial",
    "C43_subspan_end_refuted",
    "C43_elements",
    "C43_convert_partial",
    "C43_convert_null",
    "C43_dynamic_extent",
    "C43_convert_refuted"
   ],
   "note": "first/last/subspan (run-time and static), element access and iteration are the list operations for every offset and count the code accepts. Missing: subspan(size(), 0), which std::span allows, is refused by an assertion (C43_subspan_end_refuted), and conversion of a dynamic span to a static extent does not check the size (C43_convert_refuted)."
  },
  {
   "property": "C44",
   "status": "partial",
   "theorems": [
    "C44_samples_partial",
    "C44_narrow_samples_partial",
    "C44_signed_overflow_partial",
    "C44_merge_refuted",
    "C44_merge_into_empty_partial",
    "C44_merge_min_refuted"
   ],
   "note": "count, minimum, maximum and sum proved for every list of integer samples (a signed sum has to fit its type, which is shown to hold for narrow types up to 2^24 / 2^16 samples and to be necessary). Missing: merging accumulators, which the code gets wrong (branches swapped: C44_merge_refuted, C44_merge_min_refuted). The Kahan sum of floating-point samples is C100."
  },
  {
   "property": "C45",
   "status": "proved",
   "theorems": [
    "C45_guards",
    "C45_at_most_once",
    "C45_one_guard"
   ],
   "note": "The guards are neither copyable nor movable, so histories are programs of scopes, dismissals, throws and handlers. The uncaught-exception count is packed with the dismissed bit as in the code; proved against an ideal semantics that knows how each scope is left."
  },
  {
   "property": "C46",
   "status": "partial",
   "theorems": [
    "C46_construct",
    "C46_elements",
    "C46_concatenate",
    "C46_substr_partial",
    "C46_slice_partial",
    "C46_slice_to_end_partial",
    "C46_lowest_index_refuted",
    "C46_wide_index_refuted",
    "C46_equality",
    "C46_compare_partial",
    "C46_order_total",
    "C46_compare_self_refuted",
    "C46_three_way_partial",
    "C46_three_way_agrees_refuted"
   ],
   "note": "Proved: constructors, element access, concatenation, substr/slice (Python index semantics) for every index whose magnitude fits size_t and that is not the lowest value of a signed type narrower than the string, equality, and compare/order operators of two different objects. Missing because the code violates it: the lowest value of a signed index type always means the start (C46_lowest_index_refuted), indices wider than size_t are cut (C46_wide_index_refuted), comparing an object with itself yields 1 (C46_compare_self_refuted), and C++20 order operators on equal lengths use another order than compare for char (C46_three_way_agrees_refuted)."
  },
  {
   "property": "C47",
   "status": "partial",
   "theorems": [
    "C47_refinement_partial",
    "C47_conforms_run",
    "C47_no_leak_partial",
    "C47_convert_from_utf8_partial",
    "C47_trim_utf8_partial",
    "C47_move_from_empty_refuted",
    "C47_move_twice_refuted",
    "C47_trim_empty_refuted",
    "C47_view_to_empty_refuted",
    "C47_old_view_refuted",
    "C47_there_and_back_refuted",
    "C47_moved_from_empty_partial"
   ],
   "note": "Refinement of every history admitted by a value-level specification, no leak, conversions and trim for UTF-8 text. Refuted by the code: moving from or trimming an empty parameter is undefined, a view conversion whose text comes out empty dereferences null, earlier views dangle after a conversion, UTF-16 detours lose text. The whitespace predicate is a parameter of the model."
  },
  {
   "property": "C48",
   "status": "proved",
   "theorems": [
    "C48_slice",
    "C48_part_unique",
    "C48_configurations",
    "C48_slice_rest",
    "C48_select",
    "C48_type_at_index",
    "C48_concatenate",
    "C48_flatten",
    "C48_remove",
    "C48_contains",
    "C48_index_of",
    "C48_index_of_empty",
    "C48_append"
   ],
   "note": "All page sizes, with and without jumbo pages and compiler builtin; slices running over the end are ill-formed (proved). Types are modelled as trees; the generated specializations as the index ranges they cover."
  },
  {
   "property": "C49",
   "status": "proved",
   "theorems": [
    "C49_mutual_exclusion",
    "C49_no_data_race",
    "C49_free_mutex_is_taken",
    "C49_free_mutex_can_be_taken",
    "C49_try_lock_fails_only_if_held",
    "C49_try_lock_may_fail_on_stale_read",
    "C49_unlock_frees"
   ],
   "note": "Any number of threads, any interleaving, with stale reads: the flag is its list of writes in modification order, release/acquire semantics. pause instructions are not modelled. try_lock may fail on a free mutex only by reading a stale value (C49_try_lock_may_fail_on_stale_read)."
  },
  {
   "property": "C50",
   "status": "partial",
   "theorems": [
    "C50_each_value_once_partial",
    "C50_empty_range",
    "C50_from_highest_refuted",
    "C50_from_highest_signed_refuted",
    "C50_wide_signed_range_refuted",
    "C50_each_element_once"
   ],
   "note": "Every integer type, worker count and range away from the limits of the type, and the iterator forms in full. Missing because the code does it wrong: descending ranges from the highest value of an unsigned type skip the last batch (C50_from_highest_refuted), for int and wider signed types they are undefined, as are signed ranges with more values than the type's maximum. For types narrower than int such a descending range does not compile without narrowing and is not covered."
  },
  {
   "property": "C51",
   "status": "partial",
   "theorems": [
    "C51_never_fails_partial",
    "C51_fifo_partial",
    "C51_each_task_in_one_place_partial",
    "C51_at_most_once_partial",
    "C51_none_lost_before_shutdown_partial",
    "C51_worker_order",
    "C51_single_worker_order_partial",
    "C51_no_overwrite_refuted"
   ],
   "note": "Any number of workers, clients and queues, any interleaving, batches of any size, destruction included. Missing because it is false: when the capacity of a queue does not divide 2^w, the position counter going round after 2^w tasks makes a new task overwrite a waiting one (C51_no_overwrite_refuted, for every such capacity); the _partial theorems hold up to that point, or for ever if the capacity divides 2^w."
  },
  {
   "property": "C52",
   "status": "proved",
   "theorems": [
    "C52_wait_returns_when_done",
    "C52_uncounted_tasks_have_callers",
    "C52_busy_counts",
    "C52_task_may_outlive_wait"
   ],
   "note": "Same model as C51. A task counts as enqueued when its enqueue or for_each call has reported it; C52_uncounted_tasks_have_callers. The task object itself may still exist when wait returns (C52_task_may_outlive_wait)."
  },
  {
   "property": "C53",
   "status": "proved",
   "theorems": [
    "C53_matrix_is_printed_by_rows",
    "C53_matrix_elements_in_reading_order",
    "C53_vector",
    "C53_compound",
    "C53_indent"
   ],
   "note": "What the standard library writes for a number is not modelled: a number is recorded with the format state it is written in. Casts of 8- and 128-bit integers before printing are not modelled."
  },
  {
   "property": "C54",
   "status": "proved",
   "theorems": [
    "C54_product",
    "C54_unrolled_agrees",
    "C54_associative",
    "C54_identity_elements",
    "C54_identity",
    "C54_transpose",
    "C54_transpose_twice",
    "C54_transpose_reverses",
    "C54_vector_products",
    "C54_vector_composition",
    "C54_row_is_transposed_column"
   ],
   "note": "matrix.h products, transpose and identity over any commutative ring, for all conforming sizes: written-out 2x2/3x3/4x4 and loops. Rounding, promotion of narrow scalars and batching with FMA are not modelled."
  },
  {
   "property": "C55",
   "status": "proved",
   "theorems": [
    "C55_leibniz_runs_over_all_permutations",
    "C55_determinant_is_leibniz",
    "C55_determinant_multiplicative",
    "C55_determinant_of_transpose_and_identity",
    "C55_inverse",
    "C55_inverse_is_the_only_one"
   ],
   "note": "determinant and invert for 1x1..4x4 over any commutative ring / field with exact arithmetic; also uniqueness of the inverse."
  },
  {
   "property": "C56",
   "status": "proved",
   "theorems": [
    "C56_dot",
    "C56_dot3",
    "C56_cross_perpendicular",
    "C56_cross_anticommutes",
    "C56_lagrange",
    "C56_triple_product",
    "C56_cross_bilinear",
    "C56_jacobi_and_expansion",
    "C56_cross_zero",
    "C56_axes",
    "C56_dot_axis",
    "C56_orthogonal"
   ],
   "note": "vector.h dot in every dimension, cross, the axis-tagged overloads and orthogonal over exact real numbers; orthogonal keeps at least two thirds of the squared length."
  },
  {
   "property": "C57",
   "status": "proved",
   "theorems": [
    "C57_product",
    "C57_normalize",
    "C57_rotate",
    "C57_rigid",
    "C57_matrix_round_trip",
    "C57_same_rotation"
   ],
   "note": "over the reals; every branch of the matrix conversion, all three matrix shapes; also: two unit quaternions act alike iff they agree up to sign"
  },
  {
   "property": "C58",
   "status": "partial",
   "theorems": [
    "C58_equal_lengths_partial",
    "C58_refuted"
   ],
   "note": "proved for vectors of equal length (with the exact outcome in the tolerance branch); refuted for different lengths: the code uses the squared length of from twice"
  },
  {
   "property": "C59",
   "status": "partial",
   "theorems": [
    "C59_right_handed_partial",
    "C59_left_handed_refuted",
    "C59_screen_size_refuted"
   ],
   "note": "right-handed matrices of both interfaces: exactly the view frustum goes to the clip volume; refuted for left-handed ones (DirectX: negative depths, OpenGL: reversed depths) and for the screen-size overload, which ignores the mode"
  },
  {
   "property": "C60",
   "status": "proved",
   "theorems": [
    "C60_homogeneous",
    "C60_other_shapes",
    "C60_composes",
    "C60_affine_composes",
    "C60_linear_composes",
    "C60_inverse",
    "C60_translation",
    "C60_scale",
    "C60_rotation",
    "C60_direction",
    "C60_scale_of_product"
   ],
   "note": "over the reals, for all three shapes; composition even for projective matrices where no fourth coordinate vanishes; inverse matrices take points back"
  },
  {
   "property": "C61",
   "status": "proved",
   "theorems": [
    "C61_projection",
    "C61_side",
    "C61_construction",
    "C61_normalize"
   ],
   "note": "Over the reals. Also: plane built from a point and direction, origin(), normalize()."
  },
  {
   "property": "C62",
   "status": "partial",
   "theorems": [
    "C62_plane_segment_refuted",
    "C62_plane_segment_partial"
   ],
   "note": "Refuted by the code: the comparison is inverted, so every segment with no end on the plane gets the wrong answer (C62_plane_segment_refuted). C62_plane_segment_partial gives the exact meaning of the result."
  },
  {
   "property": "C63",
   "status": "proved",
   "theorems": [
    "C63_contains",
    "C63_intersects",
    "C63_closest_point"
   ],
   "note": "Over the reals; also contains(segment), contains(triangle), contains(sphere), contains(oriented box)."
  },
  {
   "property": "C64",
   "status": "proved",
   "theorems": [
    "C64_from_points",
    "C64_append",
    "C64_transform",
    "C64_from_others"
   ],
   "note": "Over the reals. transform is shown to give the least box, not just a box that contains the images; also the boxes of oriented boxes and spheres."
  },
  {
   "property": "C65",
   "status": "partial",
   "theorems": [
    "C65_plane_partial",
    "C65_plane_refuted",
    "C65_triangle_partial",
    "C65_triangle_refuted",
    "C65_sphere_partial",
    "C65_sphere_refuted",
    "C65_box_partial",
    "C65_box_refuted"
   ],
   "note": "Each hit test is characterised exactly up to the corners where the code fails, and each corner is shown by a _refuted theorem: rays in the plane, negative distances to triangles, rays that leave a sphere away from its centre, rays in the plane of a box face. The library has no hit tests for other shapes."
  },
  {
   "property": "C66",
   "status": "partial",
   "theorems": [
    "C66_boxes",
    "C66_triangle_partial",
    "C66_triangle_refuted",
    "C66_oriented_not_exact"
   ],
   "note": "Boxes of every kind are proved; box and triangle for three points not on one line. A collinear triangle is never found (C66_triangle_refuted). C66_oriented_not_exact shows that the converse fails for oriented boxes; for boxes and triangles it holds (C166)."
  },
  {
   "property": "C67",
   "status": "partial",
   "theorems": [
    "C67_barycentric",
    "C67_contains_partial",
    "C67_contains_refuted",
    "C67_coplanar"
   ],
   "note": "Barycentric coordinates and coplanar() proved. contains() for coplanar points accepts the whole line through p1 and p2 (C67_contains_refuted); C67_contains_partial says that this is the only error."
  },
  {
   "property": "C68",
   "status": "partial",
   "theorems": [
    "C68_closest_point_partial",
    "C68_closest_point_refuted",
    "C68_line"
   ],
   "note": "Proved for distinct end points; with equal ends the result is 0/0 (C68_closest_point_refuted)."
  },
  {
   "property": "C69",
   "status": "partial",
   "theorems": [
    "C69_iteration",
    "C69_size_partial",
    "C69_size_refuted",
    "C69_first_last",
    "C69_iterator_add",
    "C69_iterator_diff_signed",
    "C69_iterator_diff_unsigned_partial",
    "C69_iterator_diff_narrow",
    "C69_iterator_diff_refuted"
   ],
   "note": "Iteration, first/last, iterator addition are proved in full. size() and iterator subtraction overflow (undefined) in the cases given exactly by C69_size_partial, C69_iterator_diff_signed and C69_iterator_diff_unsigned_partial; the last overflows even for representable differences (C69_iterator_diff_refuted)."
  },
  {
   "property": "C70",
   "status": "proved",
   "theorems": [
    "C70_utf_decode_total",
    "C70_utf8_forward_tiles"
   ],
   "note": ""
  },
  {
   "property": "C71",
   "status": "proved",
   "theorems": [
    "C71_combiner_bijective",
    "C71_golden",
    "C71_golden128_refuted"
   ],
   "note": "C71_golden characterises the mixing constants of the 16-, 32- and 64-bit combiners; the 128-bit constant has wrong low bits (C71_golden128_refuted), which the statement does not mention and which does not affect bijectivity."
  },
  {
   "property": "C72",
   "status": "proved",
   "theorems": [
    "C72_fnv1a_one_byte"
   ],
   "note": ""
  },
  {
   "property": "C73",
   "status": "proved",
   "theorems": [
    "C73_fnv1a_print"
   ],
   "note": ""
  },
  {
   "property": "C74",
   "status": "partial",
   "theorems": [
    "C74_sha1_wide_partial"
   ],
   "note": "Proved for UTF-32, and for UTF-16 text without surrogate pairs, when the text has a byte order mark (either order) or is recognised as native. Missing: surrogate pairs are never combined by the library's UTF-16 decoder and native text may be taken for byte-swapped (see C22, C25), so the full statement is false of the code."
  },
  {
   "property": "C75",
   "status": "proved",
   "theorems": [
    "C75_sign_operations",
    "C75_from_bool"
   ],
   "note": "All 65536 patterns."
  },
  {
   "property": "C76",
   "status": "proved",
   "theorems": [
    "C76_limits",
    "C76_epsilon",
    "C76_special",
    "C76_integers"
   ],
   "note": "numeric_limits also says round_to_nearest, whereas the conversion truncates (C39)."
  },
  {
   "property": "C77",
   "status": "proved",
   "theorems": [
    "C77_no_deadlock"
   ],
   "note": "Possibility of completion (no deadlock); fairness of the scheduler is not modelled. As in C51, no position counter may go round unless the capacity divides 2^w."
  },
  {
   "property": "C78",
   "status": "partial",
   "theorems": [
    "C78_length_partial",
    "C78_distance_is_a_metric",
    "C78_displacement",
    "C78_cauchy_schwarz",
    "C78_normalize_partial",
    "C78_direction",
    "C78_angle",
    "C78_lerp",
    "C78_one_dimension_refuted"
   ],
   "note": "Proved for two or more dimensions (distance and lerp for all). In one dimension the code's length is the element itself, hence negative for negative elements, and normalize always gives 1: C78_one_dimension_refuted."
  },
  {
   "property": "C79",
   "status": "partial",
   "theorems": [
    "C79_normalized_int_refuted",
    "C79_normalized_int_one_dimension_partial"
   ],
   "note": "Refuted: the loop runs while the sum is greater than one, hence never, and the result is false for every vector of two or more dimensions (C79_normalized_int_refuted). In one dimension it holds only for 1, not -1."
  },
  {
   "property": "C80",
   "status": "proved",
   "theorems": [
    "C80_from_axis_angle",
    "C80_to_axis_angle",
    "C80_part"
   ],
   "note": ""
  },
  {
   "property": "C81",
   "status": "partial",
   "theorems": [
    "C81_order",
    "C81_local_axes_refuted",
    "C81_round_trip_partial",
    "C81_near_pole_refuted",
    "C81_angles_back"
   ],
   "note": "exact order proved: yaw, pitch and roll are applied about the fixed axes, so the documented local axes are refuted; round trips proved except nearer to the poles than the threshold but not on them, where they are refuted"
  },
  {
   "property": "C82",
   "status": "proved",
   "theorems": [
    "C82_slerp",
    "C82_arc"
   ],
   "note": ""
  },
  {
   "property": "C83",
   "status": "proved",
   "theorems": [
    "C83_orthonormalize",
    "C83_fixed",
    "C83_no_shear"
   ],
   "note": ""
  },
  {
   "property": "C84",
   "status": "proved",
   "theorems": [
    "C84_direction"
   ],
   "note": ""
  },
  {
   "property": "C85",
   "status": "partial",
   "theorems": [
    "C85_contains",
    "C85_triangle",
    "C85_spheres_partial",
    "C85_spheres_refuted",
    "C85_closest_point_partial",
    "C85_closest_point_refuted"
   ],
   "note": "Points, segments, triangles and boxes exact. sphere/sphere intersects() misses some and contains(sphere) accepts too many (C85_spheres_refuted, one direction each in C85_spheres_partial). closest_point outside the ball leaves out the centre (C85_closest_point_refuted); C85_closest_point_partial shows that this is the only error."
  },
  {
   "property": "C86",
   "status": "proved",
   "theorems": [
    "C86_oriented"
   ],
   "note": ""
  },
  {
   "property": "C87",
   "status": "partial",
   "theorems": [
    "C87_area",
    "C87_normal",
    "C87_centroid",
    "C87_degenerate_partial",
    "C87_degenerate_refuted"
   ],
   "note": "degenerate() only compares corners for equality and misses collinear triangles (C87_degenerate_refuted); the other parts are proved in full."
  },
  {
   "property": "C88",
   "status": "partial",
   "theorems": [
    "C88_planes_partial",
    "C88_planes_refuted"
   ],
   "note": "Refuted: the test is inverted, it is true exactly when the normals are nearly parallel (C88_planes_partial gives the exact meaning)."
  },
  {
   "property": "C89",
   "status": "proved",
   "theorems": [
    "C89_narrow",
    "C89_boundary"
   ],
   "note": "The functions for char forward to those for unsigned char; the translator checks that."
  },
  {
   "property": "C90",
   "status": "proved",
   "theorems": [
    "C90_families"
   ],
   "note": ""
  },
  {
   "property": "C91",
   "status": "proved",
   "theorems": [
    "C91_total",
    "C91_even",
    "C91_no_buckets"
   ],
   "note": "C91_no_buckets records the division by zero."
  },
  {
   "property": "C92",
   "status": "proved",
   "theorems": [
    "C92_gcd",
    "C92_lowest"
   ],
   "note": "std::gcd is modelled by its standard contract (undefined when an absolute value is not representable)."
  },
  {
   "property": "C93",
   "status": "partial",
   "theorems": [
    "C93_lcm_partial",
    "C93_same_type",
    "C93_refuted"
   ],
   "note": "Refuted as stated (C93_refuted): intermediate results have the common type of the first arguments only, and a zero argument does not save an overflow before it. Proved when a common multiple of the non-zero arguments fits every argument's type (C93_lcm_partial), and for non-zero arguments of one type the function is defined exactly when the result fits (C93_same_type). std::lcm is modelled by its standard contract."
  },
  {
   "property": "C94",
   "status": "proved",
   "theorems": [
    "C94_abs",
    "C94_lowest"
   ],
   "note": "std::abs is modelled like the naive version: negation, undefined on overflow."
  },
  {
   "property": "C95",
   "status": "partial",
   "theorems": [
    "C95_partial",
    "C95_refuted"
   ],
   "note": "Refuted as stated (C95_refuted: -1 and 4294967295u); C95_partial is the exact condition: a negative number meeting an unsigned type at least as wide as itself and as int is taken modulo 2^w."
  },
  {
   "property": "C96",
   "status": "proved",
   "theorems": [
    "C96_float",
    "C96_double",
    "C96_half",
    "C96_quad",
    "C96_x87"
   ],
   "note": "The encoding is Flocq's (Bits.v); the x87 layout is stated in the theorem."
  },
  {
   "property": "C97",
   "status": "proved",
   "theorems": [
    "C97_floor",
    "C97_floor_undefined",
    "C97_ceil",
    "C97_ceil_undefined",
    "C97_special"
   ],
   "note": "The outcome outside the intmax_t range (e.g. floor(1e19) at compile time) is undefined behaviour, proved by C97_floor_undefined and C97_ceil_undefined."
  },
  {
   "property": "C98",
   "status": "proved",
   "theorems": [
    "C98_sound",
    "C98_complete",
    "C98_symmetric",
    "C98_reflexive",
    "C98_zero"
   ],
   "note": "Epsilon zero is allowed by the assumption in the code but makes nothing equal, not even a number to itself (C98_reflexive)."
  },
  {
   "property": "C99",
   "status": "partial",
   "theorems": [
    "C99_endpoints_partial",
    "C99_between_refuted"
   ],
   "note": "The end points are exact (C99_endpoints_partial); staying between is refuted (C99_between_refuted: lerp(3, 3, 0.1f) is not 3)."
  },
  {
   "property": "C100",
   "status": "proved",
   "theorems": [
    "C100_error"
   ],
   "note": "Without fast-math, in round to nearest. Samples of the sum's own type (float, double, long double); half samples, which are summed in float and rounded once more, are not covered."
  },
  {
   "property": "C101",
   "status": "partial",
   "theorems": [
    "C101_exact_partial",
    "C101_signed_exact_partial",
    "C101_range_refuted"
   ],
   "note": "Proved in exact arithmetic (C101_exact_partial, C101_signed_exact_partial). In float the range is missed on both sides (C101_range_refuted), computed with IEEE single precision and the library's constants."
  },
  {
   "property": "C102",
   "status": "proved",
   "theorems": [
    "C102_row_major",
    "C102_broadcast"
   ],
   "note": ""
  },
  {
   "property": "C103",
   "status": "partial",
   "theorems": [
    "C103_long_double_partial",
    "C103_float",
    "C103_half",
    "C103_double_partial",
    "C103_exact_roots_partial",
    "C103_integer_squares",
    "C103_special",
    "C103_far_refuted",
    "C103_infinity_refuted"
   ],
   "note": "Proved for all positive float and _Float16 numbers (correct rounding), all integer squares below 2^106, zeros, NaN, negative numbers; for double, long double and float128 between 2^-160 and 2^160. Outside that range the hundred Newton steps do not suffice: the root of 2^600 comes out above 2^400 (C103_far_refuted), and infinity gives NaN (C103_infinity_refuted). What is missing: the exact end of the accurate range (about 2^186)."
  },
  {
   "property": "C104",
   "status": "partial",
   "theorems": [
    "C104_names",
    "C104_float",
    "C104_double_partial",
    "C104_long_double_partial",
    "C104_float128_partial",
    "C104_digits_partial",
    "C104_digits128_partial",
    "C104_e_refuted",
    "C104_float128_refuted",
    "C104_e_cause",
    "C104_wrong_e"
   ],
   "note": "Proved: all 106 constants in float; all formulas without e in double, long double and float128_t (degrees_to_radians excepted in float128_t), by interval arithmetic on integers with proved bounds on pi (Machin-like series) and e (alternating series). Refuted: all 18 constants made from e are wrong in long double and float128_t and 15 of them in double, because they were computed from a double that is not even the nearest to e (C104_e_cause, C104_wrong_e); degrees_to_radians in float128_t is not the nearest. Only the x87 long double is covered."
  },
  {
   "property": "C105",
   "status": "partial",
   "theorems": [
    "C105_half_partial",
    "C105_half_refuted"
   ],
   "note": "67 constants are the nearest number (C105_half_partial); the other 39, among them pi, one_over_three and one_over_ten, are proved to be the next number above it (C105_half_refuted)."
  },
  {
   "property": "C106",
   "status": "proved",
   "theorems": [
    "C106_same_side",
    "C106_segments"
   ],
   "note": "Exact arithmetic."
  },
  {
   "property": "C107",
   "status": "partial",
   "theorems": [
    "C107_constants",
    "C107_constants_double",
    "C107_constants_float128",
    "C107_turn",
    "C107_wide_partial",
    "C107_small",
    "C107_depth",
    "C107_special",
    "C107_narrow",
    "C107_narrow_wide_partial",
    "C107_negative_refuted"
   ],
   "note": "Proved: the bounds within a turn (C107_turn, C107_narrow), up to 2^40 (C107_wide_partial, C107_narrow_wide_partial: 3|x| 2^-p on top of a constant), relative accuracy for small positive arguments (C107_small), depth, special values, and that the constants used are the rounded true values (C107_constants*). Missing: arguments beyond 2^40 (the bound there is not proved; beyond about 2^65 the evaluation is not a constant expression). Refuted: oddness and relative accuracy for small negative arguments (C107_negative_refuted: the compile-time sine of -2^-100 is below -2^-59)."
  },
  {
   "property": "C108",
   "status": "partial",
   "theorems": [
    "C108_half_turn_partial",
    "C108_small_partial",
    "C108_depth",
    "C108_special",
    "C108_right_angle_refuted",
    "C108_double_partial",
    "C108_negative_refuted"
   ],
   "note": "Proved: from 2^-900 up to pi, other than at the constant pi_over_two, the result is tan(a)(1+d) with |a-x| <= 5.5 2^-p and |d| <= 120 2^-p (C108_half_turn_partial; C108_double_partial for double; C108_small_partial without the shift below pi/8); depth; special values. Missing: smaller, negative and greater arguments. Refuted: tan(constants<long double>::pi_over_two) is not a constant expression, because the cosine found is zero (C108_right_angle_refuted); tan(-2^-100) is +0 (C108_negative_refuted)."
  },
  {
   "property": "C109",
   "status": "partial",
   "theorems": [
    "C109_two",
    "C109_signs",
    "C109_three_partial",
    "C109_three_refuted",
    "C109_last_axis_two",
    "C109_first_axis_refuted"
   ],
   "note": "two components and the signs are proved in full. Three components: C109_three_partial leaves out z = 0 with |x|/(|x|+|y|) half-way between two levels of the lower half, where C109_three_refuted shows that x and y are exchanged. The last axis unpacks to itself, the first does not (C109_first_axis_refuted), because packing scales by R - 1."
  },
  {
   "property": "C110",
   "status": "partial",
   "theorems": [
    "C110_two",
    "C110_three",
    "C110_stable_two",
    "C110_drift_two_refuted",
    "C110_drift_three_refuted"
   ],
   "note": "refuted: C110_two and C110_three say exactly what one cycle makes of every value, C110_stable_two which values keep, and C110_drift_two_refuted and C110_drift_three_refuted that the first axis drifts level by level until it is half-way to the second. C110_three is about the words that the exact packing of a direction without a tie (C109) stores."
  },
  {
   "property": "C111",
   "status": "partial",
   "theorems": [
    "C111_two",
    "C111_three_partial",
    "C111_two_refuted",
    "C111_three_refuted"
   ],
   "note": "proved if the levels have at least four bits less than the scalar type, for three components outside a strip of 19 roundings about z = 0 where |x| < |y| (see C109). Refuted if the levels have three bits more, which includes the default integer types of two and three floats: C111_two_refuted, C111_three_refuted. Not settled: levels of about the precision of the scalar type, of the standard types only long double with two components in 64 bits."
  },
  {
   "property": "C112",
   "status": "partial",
   "theorems": [
    "C112_exact",
    "C112_symmetric",
    "C112_apart_refuted",
    "C112_missed_refuted"
   ],
   "note": "C112_exact proves the property for all pairs that satisfy the condition on the distances. Without it the property is refuted in both directions: C112_apart_refuted (triangles any distance apart reported as intersecting) and C112_missed_refuted (triangles that meet reported as apart). Scalars are the reals: rounding is not covered."
  },
  {
   "property": "C113",
   "status": "partial",
   "theorems": [
    "C113_segment",
    "C113_same_answer",
    "C113_uninitialised_refuted"
   ],
   "note": "C113_segment and C113_same_answer prove the property under the condition on the distances. C113_uninitialised_refuted: without it, for every tolerance up to one, there are crossing triangles for which variables are read that were never written. Scalars are the reals: rounding is not covered."
  },
  {
   "property": "C114",
   "status": "partial",
   "theorems": [
    "C114_constants",
    "C114_constants_double",
    "C114_constants_float128",
    "C114_float128",
    "C114_long_double_53",
    "C114_long_double",
    "C114_endless_refuted",
    "C114_narrow",
    "C114_narrow_113",
    "C114_narrow_53",
    "C114_depth",
    "C114_special",
    "C114_odd"
   ],
   "note": "Proved for all formats, except that for x87 long double the recursion never ends at exactly twelve arguments (C114_endless_refuted): +-(1 - 2^-64), +-(the two numbers above 2 - sqrt 3) and three whose reciprocals round to these, with either sign. C114_long_double covers all others. Half, float and double never hit them (C114_narrow*). The run-time path (std::atan) is not modelled."
  },
  {
   "property": "C115",
   "status": "partial",
   "theorems": [
    "C115_small_float128",
    "C115_small_long_double",
    "C115_small_long_double_53",
    "C115_float128",
    "C115_long_double",
    "C115_long_double_53",
    "C115_small_narrow",
    "C115_small_narrow_113",
    "C115_small_narrow_53",
    "C115_narrow",
    "C115_narrow_113",
    "C115_narrow_53",
    "C115_double_refuted",
    "C115_double_53_refuted",
    "C115_depth",
    "C115_special",
    "C115_outside"
   ],
   "note": "Everything is proved except the accuracy in units in the last place beyond 1/sqrt(2), which is false: the error there is bounded by 0.65 u^(3/4) + 102 u (C115_float128, C115_long_double, C115_long_double_53, C115_narrow*), and C115_double_refuted gives a double whose result is more than 3 ulp off by way of x87 long double, C115_double_53_refuted one that is more than 1000 ulp off where long double is a double. The run-time path (std::asin) is not modelled."
  },
  {
   "property": "C116",
   "status": "partial",
   "theorems": [
    "C116_depth",
    "C116_special",
    "C116_outside",
    "C116_float128",
    "C116_long_double",
    "C116_long_double_53",
    "C116_narrow",
    "C116_narrow_113",
    "C116_narrow_53",
    "C116_relative_refuted",
    "C116_relative_53_refuted"
   ],
   "note": "Proved with an absolute error of at most 0.65 u^(3/4) + 107 u, for half, float and double 2^(1-p) more (C116_float128, C116_long_double, C116_long_double_53, C116_narrow*). The relative accuracy is false near one: C116_relative_refuted, more than 20000 units of 2^-53 for the double 1 - 2^-52 by way of x87 long double; C116_relative_53_refuted, more than 30 million where long double is a double. The run-time path (std::acos) is not modelled."
  },
  {
   "property": "C117",
   "status": "partial",
   "theorems": [
    "C117_calls_target",
    "C117_overloads_refuted",
    "C117_null_pointer_refuted",
    "C117_null"
   ],
   "note": "C117_calls_target: every program whose views are copied from const views only, without null pointers, with classes that behave as lambdas do (an empty class does not overload its call operator, unary plus agrees with it). Refuted otherwise: C117_overloads_refuted (a const object of an empty class is called through a new object that is not const), C117_null_pointer_refuted (a view of a null function pointer says it is bound). Copies: C118. Exceptions and noexcept, argument forwarding and callables that use views themselves are not modelled."
  },
  {
   "property": "C118",
   "status": "partial",
   "theorems": [
    "C118_copy_follows",
    "C118_dangling_refuted",
    "C118_const_copy",
    "C118_copies_refuted"
   ],
   "note": "True for copies of const lvalues and for assignment (C118_const_copy, C117_calls_target). Refuted for all others (C118_copies_refuted, C118_dangling_refuted): the constructor template takes them for a callable, so that the copy views the original: it changes with the original (C118_copy_follows), dangles after it, is never null, and a view assigned a copy of itself calls itself for ever."
  },
  {
   "property": "C119",
   "status": "proved",
   "theorems": [
    "C119_atomic_waits_end",
    "C119_atomic_no_lost_wakeup",
    "C119_atomic_returns",
    "C119_waits_end",
    "C119_no_lost_wakeup",
    "C119_returns",
    "C119_count",
    "C119_mutex"
   ],
   "note": "Mutex and condition variable (as compiled) and std::atomic::wait (switched off in the source) are both modelled. Counts do not go round at the end of size_t."
  },
  {
   "property": "C120",
   "status": "proved",
   "theorems": [
    "C120_join_ends",
    "C120_queue_ends",
    "C120_destruction_ends",
    "C120_nothing_left",
    "C120_no_more_taken"
   ],
   "note": "Possibility of completion for every reachable state, not fairness of the scheduler. Tasks are assumed to return."
  },
  {
   "property": "C121",
   "status": "partial",
   "theorems": [
    "C121_trim",
    "C121_trim_left",
    "C121_trim_right",
    "C121_defined",
    "C121_undefined_refuted",
    "C121_mark_lost_refuted"
   ],
   "note": "C121_trim, C121_trim_left and C121_trim_right are exact, the undefined cases included. Refuted where the first or last character that is not white space is one of the 374 code points without an answer of C16 (C121_undefined_refuted); elsewhere proved (C121_defined). Trimming text with a mark in the other byte order removes the mark but leaves the units swapped, so that the library may read another text (C121_mark_lost_refuted)."
  },
  {
   "property": "C122",
   "status": "proved",
   "theorems": [
    "C122_compiles",
    "C122_ends",
    "C122_qualifiers"
   ],
   "note": "IUnknown on Windows and private inheritance are not modelled; conversion between function and object pointers is assumed to be supported."
  },
  {
   "property": "C123",
   "status": "partial",
   "theorems": [
    "C123_to_base",
    "C123_to_derived_static",
    "C123_to_derived_dynamic",
    "C123_base_and_back",
    "C123_virtual_base_and_back",
    "C123_virtual_base_and_back_refuted",
    "C123_null",
    "C123_address",
    "C123_there_and_back",
    "C123_to_integer",
    "C123_integer_and_back",
    "C123_from_integer",
    "C123_base_through_void_refuted",
    "C123_other_base_refuted"
   ],
   "note": "Proved except where the code cannot do it: to a virtual base and back is null when two objects of the class share the base (C123_virtual_base_and_back gives both cases, C123_virtual_base_and_back_refuted an instance). C123_base_through_void_refuted and C123_other_base_refuted show what the documented reinterpret_cast fallback means."
  },
  {
   "property": "C124",
   "status": "partial",
   "theorems": [
    "C124_spelling",
    "C124_extract",
    "C124_number",
    "C124_nested_array_refuted",
    "C124_pointer_to_array_refuted",
    "C124_variadic_refuted",
    "C124_zero_refuted",
    "C124_nested_template_refuted",
    "C124_empty_numbers_refuted",
    "C124_lowest_refuted"
   ],
   "note": "Proved for all types in the described domain; for the others the name is not the spelling, which is proved too (C124_..._refuted)."
  },
  {
   "property": "C125",
   "status": "proved",
   "theorems": [
    "C125_named",
    "C125_distinct",
    "C125_auto_refuted"
   ],
   "note": "The exception for templates that take auto is C125_auto_refuted."
  },
  {
   "property": "C126",
   "status": "partial",
   "theorems": [
    "C126_plain",
    "C126_expression",
    "C126_unequal",
    "C126_arithmetic",
    "C126_arithmetic_lenient",
    "C126_counting",
    "C126_narrow_refuted",
    "C126_dangling_refuted",
    "C126_const_bool_refuted"
   ],
   "note": "The replacement theorem is proved for compilers that reject narrowing inside braces (the standard's rule). Refuted parts of the documentation, with exact conditions: traits on value types narrower than int (C126_narrow_refuted; lenient compilers in C126_arithmetic_lenient), references (C126_dangling_refuted), const bools (C126_const_bool_refuted)."
  },
  {
   "property": "C127",
   "status": "proved",
   "theorems": [
    "C127_origin",
    "C127_operands",
    "C127_isolated",
    "C127_default"
   ],
   "note": ""
  },
  {
   "property": "C128",
   "status": "partial",
   "theorems": [
    "C128_anatomy",
    "C128_set",
    "C128_ask",
    "C128_copy",
    "C128_strip",
    "C128_any_cv_refuted"
   ],
   "note": "All parts proved for all types, except that any_cv, all_cv and is_cv are false for every reference, against their documentation (C128_any_cv_refuted)."
  },
  {
   "property": "C129",
   "status": "partial",
   "theorems": [
    "C129_remove_enum",
    "C129_make_signed",
    "C129_make_unsigned",
    "C129_vectors",
    "C129_copy_signed",
    "C129_unicode_refuted",
    "C129_rebase_pointer",
    "C129_rebase_pointer_refuted",
    "C129_pointer_rank"
   ],
   "note": "Proved, with two refutations: char8_t, char16_t and char32_t have no signed equivalent although they have an unsigned one, and a reference to one becomes cv void (C129_unicode_refuted); rebase_pointer drops the pointee's qualifiers if the pointer itself is qualified (C129_rebase_pointer_refuted; C129_rebase_pointer says exactly what is kept)."
  },
  {
   "property": "C130",
   "status": "partial",
   "theorems": [
    "C130_largest",
    "C130_smallest",
    "C130_total_size",
    "C130_index",
    "C130_rank",
    "C130_rank_exact",
    "C130_rank_two",
    "C130_rank_order_refuted"
   ],
   "note": "highest_ranked is proved for types that C++ does not promote (int and wider, floating-point); with small integers the result depends on the order of the list, and void with void has no result (C130_rank_order_refuted); two types commute always."
  },
  {
   "property": "C131",
   "status": "partial",
   "theorems": [
    "C131_noexcept",
    "C131_noexcept_others",
    "C131_ellipsis_refuted",
    "C131_callconv",
    "C131_arity",
    "C131_arity_ellipsis_refuted"
   ],
   "note": "Proved for functions without an ellipsis. With one, noexcept is neither added nor removed (C131_ellipsis_refuted), arity of a function does not compile because the template inherits from itself, and arity of a member function is 0 (C131_arity_ellipsis_refuted)."
  },
  {
   "property": "C132",
   "status": "partial",
   "theorems": [
    "C132_readonly",
    "C132_when",
    "C132_uncopyable_refuted",
    "C132_choice_refuted"
   ],
   "note": "The rule is proved; a trivially copyable class with a deleted copy constructor is passed by value (C132_uncopyable_refuted); pass_readonly_by_reference is true for every list, because its fold starts from true (C132_choice_refuted). __vectorcall is not modelled."
  },
  {
   "property": "C133",
   "status": "proved",
   "theorems": [
    "C133_sequence",
    "C133_sequence_noexcept",
    "C133_product",
    "C133_product_noexcept"
   ],
   "note": ""
  },
  {
   "property": "C134",
   "status": "proved",
   "theorems": [
    "C134_literals",
    "C134_sizes",
    "C134_overflow_refuted"
   ],
   "note": "C134_overflow_refuted records that a literal that does not fit is silently another number (300_u8, 4_gb with a 32-bit size_t)."
  },
  {
   "property": "C135",
   "status": "proved",
   "theorems": [
    "C135_tail"
   ],
   "note": ""
  },
  {
   "property": "C136",
   "status": "partial",
   "theorems": [
    "C136_compiles",
    "C136_same_empty_refuted",
    "C136_separate",
    "C136_assignment",
    "C136_nesting",
    "C136_elided",
    "C136_free",
    "C136_elided_refuted",
    "C136_final_refuted",
    "C136_never_larger"
   ],
   "note": "All of it proved on the ABI's layout rules, including pairs of pairs (C136_nesting); the exceptions of the statement are shown to be real (C136_elided_refuted, C136_final_refuted). Refuted by the code for a pair of the same empty non-final class twice, which does not compile (C136_same_empty_refuted); C136_compiles says it is the only such case."
  },
  {
   "property": "C137",
   "status": "partial",
   "theorems": [
    "C137_accessors",
    "C137_accessors_refuted",
    "C137_construct",
    "C137_braces_refuted",
    "C137_swap"
   ],
   "note": "Refuted in three respects, each characterised exactly: accessors are ambiguous when one empty base is a base of the other (C137_accessors, C137_accessors_refuted); braces instead of parentheses (C137_braces_refuted); the second element is built first when only it is an empty base (C137_construct)."
  },
  {
   "property": "C138",
   "status": "partial",
   "theorems": [
    "C138_scalars",
    "C138_arrays",
    "C138_empty_refuted",
    "C138_convert",
    "C138_enlarge_truncate",
    "C138_concat",
    "C138_pointer",
    "C138_implicit_refuted",
    "C138_read",
    "C138_named"
   ],
   "note": "Proved for every scalar type, dimension and argument list (C138_scalars, C138_arrays, C138_convert, C138_enlarge_truncate, C138_concat, C138_pointer, C138_read, C138_named). Refuted in two respects, each characterised exactly: an empty array or tuple is refused for one dimension (C138_empty_refuted); copy initialisation converts silently through the appending constructor, and the form shown in the documentation does not compile (C138_implicit_refuted)."
  },
  {
   "property": "C139",
   "status": "partial",
   "theorems": [
    "C139_arithmetic",
    "C139_division",
    "C139_euclid",
    "C139_total",
    "C139_times_refuted",
    "C139_inverse",
    "C139_compound",
    "C139_abs"
   ],
   "note": "Proved with an exact domain (C139_arithmetic, C139_division, C139_euclid, C139_total, C139_inverse, C139_compound, C139_abs). Refuted for products of 16-bit unsigned components, which overflow int; C139_times_refuted says exactly when."
  },
  {
   "property": "C140",
   "status": "partial",
   "theorems": [
    "C140_left",
    "C140_left17",
    "C140_right",
    "C140_right_refuted",
    "C140_roundtrip",
    "C140_compound"
   ],
   "note": "Left shifts: C140_left, C140_left17 (the C++17 domain), both exact. Right shifts: C140_right, for signed, narrow and small unsigned components; refuted for unsigned components of 32 bits and more with the highest bit set, where C140_right_refuted gives the exact result."
  },
  {
   "property": "C141",
   "status": "partial",
   "theorems": [
    "C141_sum_product",
    "C141_sum_total",
    "C141_product_refuted",
    "C141_dot",
    "C141_dot_total",
    "C141_dot_refuted",
    "C141_cross",
    "C141_cross_total"
   ],
   "note": "Exact domains and values: C141_sum_product, C141_dot, C141_cross; always defined: C141_sum_total, C141_dot_total, C141_cross_total. Refuted for products of narrow components (C141_product_refuted) and dot products of unsigned components of 32 bits and more (C141_dot_refuted); the cross product there is characterised by examples only."
  },
  {
   "property": "C142",
   "status": "partial",
   "theorems": [
    "C142_same",
    "C142_mixed",
    "C142_symmetric",
    "C142_mixed_refuted"
   ],
   "note": "Proved for equal types (C142_same) and for all pairs of types (C142_mixed, C142_symmetric) but those where a signed type meets an unsigned one at least as wide and as wide as int; there it is refuted, with the exact relation (C142_mixed_refuted)."
  },
  {
   "property": "C143",
   "status": "proved",
   "theorems": [
    "C143_arguments",
    "C143_range",
    "C143_clamp"
   ],
   "note": "C143_arguments, C143_range, C143_clamp."
  },
  {
   "property": "C144",
   "status": "proved",
   "theorems": [
    "C144_error",
    "C144_finite",
    "C144_special",
    "C144_power",
    "C144_refuted"
   ],
   "note": "C144_refuted shows the stronger reading (each component is the correctly rounded quotient) fails: 41/41, divisors whose reciprocal overflows."
  },
  {
   "property": "C145",
   "status": "proved",
   "theorems": [
    "C145_dot",
    "C145_dot_finite",
    "C145_length_squared",
    "C145_length",
    "C145_distance",
    "C145_refuted"
   ],
   "note": "C145_refuted: outside the stated range length is infinite or zero; with one component it is the signed component."
  },
  {
   "property": "C146",
   "status": "proved",
   "theorems": [
    "C146_normalize",
    "C146_normalized",
    "C146_direction_error",
    "C146_direction",
    "C146_sound",
    "C146_float",
    "C146_double",
    "C146_long_double",
    "C146_refuted"
   ],
   "note": "C146_refuted: outside the range normalize gives a zero vector or NaN; with one component always 1."
  },
  {
   "property": "C147",
   "status": "proved",
   "theorems": [
    "C147_product_error",
    "C147_product_finite",
    "C147_matrix_vector_error",
    "C147_matrix_vector_finite",
    "C147_vector_matrix_error",
    "C147_vector_matrix_finite",
    "C147_fusing_is_visible"
   ],
   "note": "The definitions of matrix.h are those of MatModel.v, run on expressions; two-byte floats (which are promoted) are not covered."
  },
  {
   "property": "C148",
   "status": "proved",
   "theorems": [
    "C148_determinant_error",
    "C148_determinant_finite"
   ],
   "note": "Two-byte floats (which are promoted) are not covered."
  },
  {
   "property": "C149",
   "status": "proved",
   "theorems": [
    "C149_identity_left",
    "C149_identity_right",
    "C149_identity_vector",
    "C149_whole_product",
    "C149_whole_determinant"
   ],
   "note": "Equality of values: a negative zero may become a positive one. Two-byte floats are not covered."
  },
  {
   "property": "C150",
   "status": "proved",
   "theorems": [
    "C150_inverse_error",
    "C150_inverse_finite",
    "C150_adjugate",
    "C150_whole_inverse",
    "C150_whole_inverse_product",
    "C150_overflow_refuted",
    "C150_underflow_refuted"
   ],
   "note": "the refuted theorems are the overflow and underflow cases that the statement describes"
  },
  {
   "property": "C151",
   "status": "proved",
   "theorems": [
    "C151_product_error",
    "C151_product_finite",
    "C151_whole_product",
    "C151_identity_product",
    "C151_rotate_error",
    "C151_rotate_finite",
    "C151_whole_rotate",
    "C151_identity_rotate",
    "C151_rotation_is_conjugation",
    "C151_rotation_length"
   ],
   "note": "the results that MUU_FMA_BLOCK allows; normalised inputs are not assumed"
  },
  {
   "property": "C152",
   "status": "proved",
   "theorems": [
    "C152_matrix_error",
    "C152_matrix_rest",
    "C152_matrix_finite",
    "C152_matrix_is_rotation",
    "C152_orthonormal"
   ],
   "note": ""
  },
  {
   "property": "C153",
   "status": "proved",
   "theorems": [
    "C153_direction_error",
    "C153_affine_error",
    "C153_affine_finite",
    "C153_whole_affine",
    "C153_translation",
    "C153_scale",
    "C153_projective_error",
    "C153_infinite_position"
   ],
   "note": ""
  },
  {
   "property": "C154",
   "status": "proved",
   "theorems": [
    "C154_inside_contains",
    "C154_contains_near",
    "C154_contains_nan",
    "C154_meet_intersects",
    "C154_intersects_near",
    "C154_intersects_symmetric",
    "C154_within_contains_box",
    "C154_contains_box_near",
    "C154_contains_box_transitive",
    "C154_contains_outside_refuted",
    "C154_intersects_apart_refuted"
   ],
   "note": "The statement gives the behaviour of the code: inclusive one way, within half a unit in the last place the other way; that the tests are not exact is shown by C154_contains_outside_refuted and C154_intersects_apart_refuted."
  },
  {
   "property": "C155",
   "status": "partial",
   "theorems": [
    "C155_fitted_faces",
    "C155_fitted_near",
    "C155_no_points",
    "C155_fitted_overflow",
    "C155_append_faces",
    "C155_append_box_faces",
    "C155_grid_fitted",
    "C155_grid_corners",
    "C155_grid_contains",
    "C155_grid_append",
    "C155_grid_append_box",
    "C155_grid_growing",
    "C155_fitted_contains_refuted",
    "C155_append_contains_refuted",
    "C155_append_point_refuted"
   ],
   "note": "The documented effect of from_points and append (\"fitting\", \"expanding the bounded region to contain it\") fails for floats: C155_fitted_contains_refuted, C155_append_point_refuted, C155_append_contains_refuted. Proved: the distance of the faces from the exact box, exactness on grids, and what overflow does."
  },
  {
   "property": "C156",
   "status": "partial",
   "theorems": [
    "C156_colinear_point",
    "C156_colinear",
    "C156_colinear_exact",
    "C156_colinear_exact_symmetric",
    "C156_colinear_symmetric_refuted",
    "C156_colinear_degenerate_refuted",
    "C156_coplanar",
    "C156_coplanar_exact",
    "C156_coplanar_shared_start_refuted",
    "C156_coplanar_shared_start_reversed",
    "C156_contains_segment",
    "C156_contains_all",
    "C156_contains_exact",
    "C156_contains_reverse",
    "C156_extend",
    "C156_extend_degenerate",
    "C156_extend_twice",
    "C156_extend_back_refuted",
    "C156_reverse",
    "C156_length",
    "C156_contains_degenerate_refuted"
   ],
   "note": "Everything stated is proved over the reals; that two segments which share their start are coplanar, that colinear is symmetric within a tolerance, and what a segment of length zero contains are refuted."
  },
  {
   "property": "C157",
   "status": "partial",
   "theorems": [
    "C157_plane",
    "C157_plane_stretched_refuted",
    "C157_plane_unnormalized_refuted",
    "C157_obb_image",
    "C157_obb_similarity",
    "C157_obb_sheared_refuted",
    "C157_obb_flat_refuted",
    "C157_translate",
    "C157_scale",
    "C157_scale_sphere",
    "C157_scale_negative_refuted"
   ],
   "note": "Proved for similarities (planes) and all affine matrices (image of oriented boxes); refuted for uneven scaling of planes, planes that are not normalized, contains() of sheared boxes, flat boxes and negative factors."
  },
  {
   "property": "C158",
   "status": "partial",
   "theorems": [
    "C158_box_tester",
    "C158_sphere_tester",
    "C158_spheres_refuted",
    "C158_sphere_corners",
    "C158_corners"
   ],
   "note": "Two overlapping spheres can be missed (C158_spheres_refuted). That a triangle reported as intersecting really has a common point with the box is C166_testers."
  },
  {
   "property": "C159",
   "status": "partial",
   "theorems": [
    "C159_sum",
    "C159_product",
    "C159_exact",
    "C159_step",
    "C159_integers",
    "C159_sum_overflow",
    "C159_product_overflow_refuted",
    "C159_product_underflow_refuted",
    "C159_subnormal_refuted",
    "C159_nan",
    "C159_infinite"
   ],
   "note": "Proved for ordinary results; refuted for large and small products and for subnormal operands. Emulated halves without F16C."
  },
  {
   "property": "C160",
   "status": "proved",
   "theorems": [
    "C160_compare",
    "C160_compare_integer"
   ],
   "note": ""
  },
  {
   "property": "C161",
   "status": "partial",
   "theorems": [
    "C161_floor",
    "C161_floor_infinite_refuted",
    "C161_sqrt",
    "C161_approx_equal",
    "C161_atan2_refuted"
   ],
   "note": "floor and ceil of infinite halves and atan2 are refuted; sqrt is that of run time (correctly rounded float root)."
  },
  {
   "property": "C162",
   "status": "partial",
   "theorems": [
    "C162_box",
    "C162_sphere_refuted",
    "C162_sphere_cause",
    "C162_contained_refuted",
    "C162_cut",
    "C162_monotone",
    "C162_mass",
    "C162_no_density"
   ],
   "note": "Boxes, masses and densities are proved; the volume of spheres is refuted (C162_sphere_refuted, with the exact volume from iterated Riemann integrals of the indicator function; C162_sphere_cause, C162_contained_refuted). Real scalars; oriented boxes use the same function of their extents, but their volume as a set is not derived."
  },
  {
   "property": "C163",
   "status": "partial",
   "theorems": [
    "C163_empty_point",
    "C163_empty_partial",
    "C163_flat_refuted",
    "C163_zero_volume",
    "C163_degenerate",
    "C163_approx_empty",
    "C163_sphere_empty",
    "C163_box_equal",
    "C163_sphere_equal",
    "C163_zero",
    "C163_approx_equal",
    "C163_sphere_approx"
   ],
   "note": "empty() as \"exactly zero volume\" is refuted for flat boxes (C163_flat_refuted), approx_empty likewise; the rest is proved. bounding_sphere::approx_zero is not well-formed when it is used and is not modelled."
  },
  {
   "property": "C164",
   "status": "proved",
   "theorems": [
    "C164_extents",
    "C164_assign",
    "C164_assign_longest",
    "C164_diameter"
   ],
   "note": "Real scalars."
  },
  {
   "property": "C165",
   "status": "partial",
   "theorems": [
    "C165_angle",
    "C165_float128",
    "C165_long_double_53",
    "C165_long_double",
    "C165_endless_refuted",
    "C165_float",
    "C165_double_partial",
    "C165_double_refuted",
    "C165_narrow_113",
    "C165_narrow_53",
    "C165_infinite",
    "C165_nan",
    "C165_origin_refuted",
    "C165_infinities_refuted",
    "C165_negative_zero_refuted"
   ],
   "note": "Doubles and x87 long doubles whose quotient rounds to a lost arc tangent have no result (C165_endless_refuted, C165_double_refuted), nor has the origin; the rest is proved. Run-time calls go to std::atan2 and are not modelled."
  },
  {
   "property": "C166",
   "status": "proved",
   "theorems": [
    "C166_box",
    "C166_oriented_box",
    "C166_min_max",
    "C166_testers",
    "C166_order"
   ],
   "note": "Exact real arithmetic; degenerate triangles are never found, which is part of the statement (see C66)."
  },
  {
   "property": "C167",
   "status": "partial",
   "theorems": [
    "C167_lifetimes",
    "C167_no_leak",
    "C167_one_object",
    "C167_once",
    "C167_waited",
    "C167_kept",
    "C167_accepted",
    "C167_wait_refuted",
    "C167_copy_only_refuted"
   ],
   "note": "Objects captured by tasks may outlive wait() (C167_wait_refuted), and a callable that can be copied but not moved is rejected even as an lvalue that would fit (C167_copy_only_refuted). Enqueuing and taking a task are single steps here; their locking is C51, C77. The wrappers of for_each are not modelled; ref-qualified call operators are not modelled."
  },
  {
   "property": "C168",
   "status": "proved",
   "theorems": [
    "C168_distance",
    "C168_backwards",
    "C168_for_each",
    "C168_nothing",
    "C168_list_backwards_refuted",
    "C168_array_end",
    "C168_array"
   ],
   "note": "The choice between member and free begin/end is not modelled; differences of unsigned type are not modelled."
  },
  {
   "property": "C169",
   "status": "proved",
   "theorems": [
    "C169_arguments",
    "C169_small_iterators",
    "C169_room",
    "C169_large_iterators_refuted",
    "C169_closure_refuted",
    "C169_move_only_refuted",
    "C169_kept",
    "C169_stored"
   ],
   "note": "The statement words what the code does: the _refuted theorems show that the documented freedom (any collection, any noexcept callable) is not given for large iterators and move-only temporaries. Sizes are those of a 64-bit platform with alignments up to eight; the number of the batch is taken to be captured only if it is used."
  },
  {
   "property": "C170",
   "status": "proved",
   "theorems": [
    "C170_rotation",
    "C170_axes",
    "C170_scale",
    "C170_translation",
    "C170_placed",
    "C170_extract_scale",
    "C170_shear",
    "C170_placed_no_shear",
    "C170_orthonormalized",
    "C170_orthonormalize"
   ],
   "note": "Real scalars: rounding is not modelled here."
  },
  {
   "property": "C171",
   "status": "proved",
   "theorems": [
    "C171_for_each",
    "C171_count",
    "C171_none_refuted",
    "C171_many_refuted"
   ],
   "note": "The statement words what the macros do, zero arguments included (C171_none_refuted, C171_many_refuted show the limits). Standard preprocessors; the tables of names were compared with the model's countdown by a script, not inside Coq."
  },
  {
   "property": "C172",
   "status": "proved",
   "theorems": [
    "C172_samples",
    "C172_merge_empty",
    "C172_merge_refuted",
    "C172_merge_into_empty_refuted"
   ],
   "note": "Integer components. The merge faults the statement words are C172_merge_refuted and C172_merge_into_empty_refuted."
  },
  {
   "property": "C173",
   "status": "proved",
   "theorems": [
    "C173_char",
    "C173_wide_ascii",
    "C173_wide_negative",
    "C173_wide_portable",
    "C173_wide_portable_refuted"
   ],
   "note": "The difference on surrogates that the statement words is C173_wide_portable_refuted. The overloads for char16_t and char32_t are those of C16-C19."
  },
  {
   "property": "C174",
   "status": "partial",
   "theorems": [
    "C174_item_partial",
    "C174_several_partial",
    "C174_ray_refuted"
   ],
   "note": "Proved for all but rays. A ray is reported only if both its origin and its direction have such a scalar (C174_ray_refuted): ray.h joins the two tests with && where || is meant."
  },
  {
   "property": "C175",
   "status": "proved",
   "theorems": [
    "C175_extend",
    "C175_shorten",
    "C175_twice",
    "C175_degenerate",
    "C175_reverse",
    "C175_bounce"
   ],
   "note": "Over the reals: rounding, and extents that overflow, are not covered. The assertion on an empty hit of bounce is not modelled."
  },
  {
   "property": "C176",
   "status": "proved",
   "theorems": [
    "C176_equal",
    "C176_itself",
    "C176_either_way",
    "C176_transitive",
    "C176_zero",
    "C176_zero_of_all_but_rays",
    "C176_int_float",
    "C176_int_float_refuted"
   ],
   "note": "C176_int_float_refuted shows that the comparison with floats is not exact beyond 2^24, as the statement says. long double, half and the other scalar types are not covered here (for half see C161)."
  },
  {
   "property": "C177",
   "status": "proved",
   "theorems": [
    "C177_sound",
    "C177_complete",
    "C177_mixed",
    "C177_itself",
    "C177_either_way",
    "C177_zero_float",
    "C177_zero_double",
    "C177_zero_missing"
   ],
   "note": "That some calls are not well-formed is part of the model, read from the overloads; the compiler's overload resolution itself is not modelled. long double and half are not covered."
  },
  {
   "property": "C178",
   "status": "proved",
   "theorems": [
    "C178_widen",
    "C178_round_trip",
    "C178_narrow",
    "C178_nearest"
   ],
   "note": "Rounding to nearest; payloads of NaN are not modelled; conversions between different dimensions are C138."
  },
  {
   "property": "C179",
   "status": "proved",
   "theorems": [
    "C179_arguments",
    "C179_range",
    "C179_same",
    "C179_nan",
    "C179_clamp",
    "C179_nan_refuted"
   ],
   "note": "C179_nan_refuted shows the disagreement that the statement names. Which of two zeros of different signs is returned is not stated beyond the model."
  },
  {
   "property": "C180",
   "status": "partial",
   "theorems": [
    "C180_generator",
    "C180_generator_same",
    "C180_generator_nearest",
    "C180_points_partial",
    "C180_segment_partial",
    "C180_segment_within",
    "C180_segment_refuted"
   ],
   "note": "Proved over the reals except where an end or point is on the line through the last two corners beyond them: the code takes every point of that line to be contained (C67), so a segment can be said to be contained though its middle is not (C180_segment_refuted). A segment that is in the triangle is always contained (C180_segment_within)."
  },
  {
   "property": "C181",
   "status": "proved",
   "theorems": [
    "C181_box",
    "C181_sphere",
    "C181_obb",
    "C181_obb_segment",
    "C181_obb_triangle",
    "C181_together"
   ],
   "note": "Over the reals: rounding is not modelled. An empty collection is never contained."
  },
  {
   "property": "C182",
   "status": "proved",
   "theorems": [
    "C182_plane",
    "C182_none",
    "C182_cyclic",
    "C182_reversed",
    "C182_side",
    "C182_same"
   ],
   "note": "Over the reals: rounding is not modelled. C182_same holds by definition: both functions have the same body in the code."
  }
 ]
}