{
 "claims": [
  {
   "property": "C01",
   "status": "proved",
   "theorems": [
    "C01_wrap_is_reduction",
    "C01_binary_wraps",
    "C01_neg_wraps",
    "C01_not_wraps",
    "C01_add_sub_word"
   ],
   "note": "Word-level model of bigint.c; all types, all values."
  },
  {
   "property": "C02",
   "status": "partial",
   "theorems": [
    "C02_div_truncates",
    "C02_unsigned_division",
    "C02_min_div_minus_one_refuted"
   ],
   "note": "Proved for everything but MIN / -1, where the folded constant leaves the range of its type (refuted)."
  },
  {
   "property": "C03",
   "status": "partial",
   "theorems": [
    "C03_rem_exact",
    "C03_rem_truncates_partial",
    "C03_rem_truncates_refuted"
   ],
   "note": "Exact behaviour proved; the property holds for positive divisors and is refuted for negative ones."
  },
  {
   "property": "C04",
   "status": "proved",
   "theorems": [
    "C04_shl",
    "C04_shr"
   ],
   "note": ""
  },
  {
   "property": "C05",
   "status": "proved",
   "theorems": [
    "C05_compare",
    "C05_compare_word"
   ],
   "note": ""
  },
  {
   "property": "C06",
   "status": "partial",
   "theorems": [
    "C06_emitted_compare",
    "C06_runtime_compare_partial",
    "C06_folded_compare_partial",
    "C06_alias_compare_refuted"
   ],
   "note": "Holds when both operand types are built-in integer types; false for alias types (isz, CInt, ...), shown by the refutation."
  },
  {
   "property": "C07",
   "status": "proved",
   "theorems": [
    "C07_fits",
    "C07_conv",
    "C07_bits_needed_unsigned",
    "C07_bits_needed_signed"
   ],
   "note": ""
  },
  {
   "property": "C08",
   "status": "partial",
   "theorems": [
    "C08_literal_value_partial",
    "C08_too_big_rejected",
    "C08_sized_literal",
    "C08_plain_decimal",
    "C08_plain_pow2",
    "C08_no_other_crash",
    "C08_decimal_negative_refuted",
    "C08_decimal_overflow_refuted",
    "C08_hex_signed_refuted",
    "C08_suffix_crash_refuted"
   ],
   "note": "Missing: decimals of 2^128 and more, signed literals of 2^127 and more, and suffix widths 1, 2, 4, for which the property is false."
  },
  {
   "property": "C09",
   "status": "proved",
   "theorems": [
    "C09_print",
    "C09_read",
    "C09_round_trip"
   ],
   "note": ""
  },
  {
   "property": "C10",
   "status": "partial",
   "theorems": [
    "C10_block_comment_partial",
    "C10_line_comment",
    "C10_unterminated_refuted"
   ],
   "note": "Closed comments are skipped exactly. Missing: the diagnosis of a comment that is never closed, which the lexer does not give."
  },
  {
   "property": "C11",
   "status": "partial",
   "theorems": [
    "C11_strings_partial",
    "C11_round_trip",
    "C11_accepted_only",
    "C11_raw",
    "C11_hex_refuted",
    "C11_range_refuted"
   ],
   "note": "Exact for every literal but those using \\x80..\\xff (two bytes instead of one) or \\U above 10ffff (not rejected)."
  },
  {
   "property": "C12",
   "status": "partial",
   "theorems": [
    "C12_lexed",
    "C12_bytes_partial",
    "C12_hex_accepted_only",
    "C12_b64_accepted_only",
    "C12_concat_refuted",
    "C12_unpadded_refuted"
   ],
   "note": "Missing: a base64 literal after other bytes (left uninitialised) and unpadded base64 (reads past its end), for which the property is false."
  },
  {
   "property": "C13",
   "status": "partial",
   "theorems": [
    "C13_bidi_partial",
    "C13_pdf_refuted"
   ],
   "note": "Missing: text with U+202C, for which balanced text is rejected."
  },
  {
   "property": "C14",
   "status": "partial",
   "theorems": [
    "C14_parse_written_partial",
    "C14_parse_written_concat",
    "C14_print_parse_partial",
    "C14_print_parse_concat",
    "C14_accepted",
    "C14_terminates",
    "C14_print_parse_refuted"
   ],
   "note": "Missing: trees with +++ under the documented levels (refuted; proved with the level the table gives it). Lambdas, $-calls, splat, initializer lists, generic parameters and macro bodies are not in the modelled token set."
  },
  {
   "property": "C15",
   "status": "partial",
   "theorems": [
    "C15_symmetric",
    "C15_idempotent",
    "C15_builtin_result",
    "C15_associative_partial",
    "C15_associative_refuted",
    "C15_width_partial",
    "C15_width_refuted",
    "C15_common_ancestor"
   ],
   "note": "Missing: associativity with typedef types (refuted), width when an integer meets a float or a typedef type (refuted). Vectors, enums and pointers are not modelled."
  },
  {
   "property": "C16",
   "status": "partial",
   "theorems": [
    "C16_widening_partial",
    "C16_widening_refuted",
    "C16_constant_widening_refuted",
    "C16_same_width",
    "C16_constant",
    "C16_narrowing_operands_partial",
    "C16_narrowing_operands_refuted",
    "C16_narrowing_modular",
    "C16_narrowing_division_refuted",
    "C16_widening_unambiguous_partial",
    "C16_widening_unambiguous_refuted"
   ],
   "note": "Missing: negative numbers widened to an unsigned type (refuted), the length of a slice narrowed to int (refuted), expressions under \"!!\" (refuted). Assignments, increments and vectors as operands are not modelled."
  },
  {
   "property": "C17",
   "status": "partial",
   "theorems": [
    "C17_tables_agree",
    "C17_not_applicable_is_equal",
    "C17_checker_answers",
    "C17_accepted_cast_is_done_partial",
    "C17_accepted_cast_is_done_refuted",
    "C17_int_vector_to_pointers_refuted",
    "C17_no_silent_bool",
    "C17_no_silent_integer"
   ],
   "note": "Missing: lists cast to vectors when the elements are typedefs, pointers, enums, type ids or faults (refuted). Rules that depend on sizes, constants or pointed-to types are arbitrary answers; the routines that convert no further are taken to be done."
  },
  {
   "property": "C18",
   "status": "partial",
   "theorems": [
    "C18_layout_partial",
    "C18_disjoint_partial",
    "C18_packed_no_gaps_partial",
    "C18_nopadding_partial",
    "C18_member_nopadding_partial",
    "C18_no_assert_partial",
    "C18_overflow_refuted",
    "C18_assert_refuted"
   ],
   "note": "Missing: structs whose size leaves 32 bits (refuted: offsets wrap and members overlap), packed structs with @align (refuted: an assertion stops the compiler). @compact is not modelled."
  },
  {
   "property": "C19",
   "status": "partial",
   "theorems": [
    "C19_union_partial",
    "C19_overflow_refuted"
   ],
   "note": "Missing: unions whose size leaves 32 bits (refuted)."
  },
  {
   "property": "C20",
   "status": "proved",
   "theorems": [
    "C20_bitstruct",
    "C20_accepts"
   ],
   "note": "Ranges are numbers: the evaluation of the constant expressions for them is not modelled."
  },
  {
   "property": "C21",
   "status": "partial",
   "theorems": [
    "C21_compare_chain_partial",
    "C21_llvm_switch",
    "C21_jump_table_partial",
    "C21_determined",
    "C21_agree_partial",
    "C21_default_refuted",
    "C21_jump_table_refuted",
    "C21_jump_span_refuted"
   ],
   "note": "Missing: a default without statements before a case with some (refuted), jump tables whose cases run into default or off the end (refuted), jump tables whose span wraps the signed type (refuted). Switches over other types than integers and enums are always compare chains and are not modelled."
  },
  {
   "property": "C22",
   "status": "partial",
   "theorems": [
    "C22_start_in_earlier_partial",
    "C22_ascending_partial",
    "C22_single_values",
    "C22_second_default",
    "C22_no_false_alarm",
    "C22_refuted"
   ],
   "note": "Missing: a range that starts before and ends in or after an earlier case (refuted)."
  },
  {
   "property": "C23",
   "status": "partial",
   "theorems": [
    "C23_exhaustive_partial",
    "C23_overlap_refuted",
    "C23_computed_refuted",
    "C23_wide_refuted"
   ],
   "note": "Missing: overlapping cases, computed cases and ranges of more than 257 values (all refuted)."
  },
  {
   "property": "C24",
   "status": "partial",
   "theorems": [
    "C24_arrays",
    "C24_typed_partial",
    "C24_untyped_partial",
    "C24_append_partial",
    "C24_append_untyped",
    "C24_bytes",
    "C24_string_char",
    "C24_string_char_rejected",
    "C24_bytes_list_partial",
    "C24_list_bytes_partial",
    "C24_untyped_zero_refuted",
    "C24_bytes_zero_refuted",
    "C24_untyped_struct_refuted",
    "C24_append_empty_refuted"
   ],
   "note": "Complete for the nine pairs of array representations. Missing: arrays with zeros stored among their elements in untyped lists and next to strings, structs in untyped lists, the cast of an element after an empty slice (all refuted)."
  },
  {
   "property": "C25",
   "status": "partial",
   "theorems": [
    "C25_equal_partial",
    "C25_not_equal_partial",
    "C25_ordered",
    "C25_float_order",
    "C25_fault_refuted",
    "C25_nul_refuted",
    "C25_zero_array_refuted"
   ],
   "note": "Missing: != of faults, strings with NUL, byte strings against arrays that store zeros (all refuted)."
  },
  {
   "property": "C26",
   "status": "partial",
   "theorems": [
    "C26_interning_identifies_spellings_partial",
    "C26_lexer_hash_is_spelling_hash",
    "C26_same_spelling_same_handle_refuted",
    "C26_different_spelling_different_handle_refuted"
   ],
   "note": "Proved for every history of spellings shorter than 65536 bytes, including bucket and full hash collisions; refuted for longer ones because the stored length has 16 bits."
  },
  {
   "property": "C27",
   "status": "proved",
   "theorems": [
    "C27_overwriting_table_returns_last",
    "C27_chained_table_returns_first",
    "C27_declarations_found_in_order"
   ],
   "note": "All histories of fewer than 2^28 operations, any power-of-two initial size up to 2^28; includes termination of every probe and the absence of assertion failures."
  },
  {
   "property": "C28",
   "status": "partial",
   "theorems": [
    "C28_blocks_disjoint_aligned_inside_partial",
    "C28_exhaustion_is_an_error_partial",
    "C28_no_overlap_refuted",
    "C28_blocks_start_zeroed",
    "C28_string_copies_terminated",
    "C28_object_numbers_identify",
    "C28_committed_covers_allocated",
    "C28_reserved_size"
   ],
   "note": "Proved for requests up to 2^63 bytes; refuted for requests close to 2^64, which are rounded to zero."
  },
  {
   "property": "C29",
   "status": "partial",
   "theorems": [
    "C29_returns_only_when_done",
    "C29_never_twice",
    "C29_no_deadlock",
    "C29_terminates",
    "C29_mutual_exclusion",
    "C29_windows_partial",
    "C29_windows_refuted"
   ],
   "note": "Proved in full for the pthread build, for every schedule. On Windows it holds for at most 64 threads and is refuted for 65 (WaitForMultipleObjects fails and the failure is ignored)."
  },
  {
   "property": "C30",
   "status": "partial",
   "theorems": [
    "C30_reads_partial",
    "C30_reads_extended",
    "C30_reads_refuted",
    "C30_errors_partial",
    "C30_errors_refuted",
    "C30_terminates",
    "C30_in_bounds_partial",
    "C30_in_bounds_refuted"
   ],
   "note": "Every RFC 8259 document without negative numbers, exponents and \\u escapes is read as its value; every accepted text begins with a value of an explicit extended grammar; the reader always finishes; it stays in bounds when three bytes follow each \\u. Refuted: signs are dropped, exponents rejected, \\u gives one byte, text after the first value and blank files are not errors, a final \\u reads out of bounds. Numbers are exact rationals in the model."
  },
  {
   "property": "C31",
   "status": "proved",
   "theorems": [
    "C31_encode",
    "C31_decode",
    "C31_text_unique",
    "C31_roundtrip"
   ],
   "note": "Both alphabets, every padding character that is no letter. Leftover bits of the last digit are not looked at by decode, and the specification says so."
  },
  {
   "property": "C32",
   "status": "partial",
   "theorems": [
    "C32_encode",
    "C32_decode_partial",
    "C32_roundtrip_partial",
    "C32_larger_destination_refuted",
    "C32_out_of_bounds_refuted",
    "C32_garbage_refuted"
   ],
   "note": "Missing: padded texts with a destination larger than announced (refuted), padding characters that are not at the end (refuted)."
  },
  {
   "property": "C33",
   "status": "proved",
   "theorems": [
    "C33_encode",
    "C33_decode",
    "C33_roundtrip",
    "C33_lower_case"
   ],
   "note": ""
  },
  {
   "property": "C34",
   "status": "proved",
   "theorems": [
    "C34_encode",
    "C34_encode_length",
    "C34_encoded_characters",
    "C34_decode",
    "C34_roundtrip"
   ],
   "note": ""
  },
  {
   "property": "C35",
   "status": "partial",
   "theorems": [
    "C35_utf32_to_utf8",
    "C35_utf32_to_utf8_safe",
    "C35_utf8_to_utf32",
    "C35_utf8_to_utf16",
    "C35_utf16_length",
    "C35_utf16_to_utf8_partial",
    "C35_utf16_to_utf8_bmp_partial",
    "C35_utf16_to_utf8_refuted",
    "C35_malformed_utf8_partial",
    "C35_malformed_utf8_refuted",
    "C35_split_unique",
    "C35_utf8_is_loose",
    "C35_truncated",
    "C35_utf32to8",
    "C35_utf8to32"
   ],
   "note": "Missing: UTF-16 text with surrogate pairs to UTF-8 (refuted: trailing garbage), refusal of overlong forms, surrogates and numbers above 0x10FFFF in UTF-8 (refuted). Not modelled: wide-character variants of the same functions."
  },
  {
   "property": "C36",
   "status": "partial",
   "theorems": [
    "C36_list_partial",
    "C36_self_add_refuted"
   ],
   "note": "All operations of list.c3 over all histories up to 2^60 elements. Missing: a.add_all(&a), which writes past the storage (refuted)."
  },
  {
   "property": "C37",
   "status": "proved",
   "theorems": [
    "C37_filter",
    "C37_remove_item"
   ],
   "note": ""
  },
  {
   "property": "C38",
   "status": "partial",
   "theorems": [
    "C38_map_partial",
    "C38_iterator",
    "C38_copy",
    "C38_free_refuted"
   ],
   "note": "All histories, hash functions and resize policies. Missing: use after free(), which reads outside the table (refuted)."
  },
  {
   "property": "C39",
   "status": "proved",
   "theorems": [
    "C39_linked_list"
   ],
   "note": "All histories up to 2^60 operations; also that the node chain is right both ways and no node is leaked or used after free."
  },
  {
   "property": "C40",
   "status": "partial",
   "theorems": [
    "C40_ring_partial",
    "C40_read_partial",
    "C40_pop_full",
    "C40_pop_refuted",
    "C40_pop_wrap_refuted",
    "C40_read_refuted"
   ],
   "note": "Missing: pop of a full buffer and read across the wrap, for which the property is false."
  },
  {
   "property": "C41",
   "status": "partial",
   "theorems": [
    "C41_bitset",
    "C41_growable",
    "C41_len_refuted"
   ],
   "note": "Every operation but BitSet.len is exact; len counts the padding bits (refuted)."
  },
  {
   "property": "C42",
   "status": "partial",
   "theorems": [
    "C42_enumset",
    "C42_large_partial",
    "C42_large_refuted"
   ],
   "note": "Exact up to 32 elements. Missing: sets of more than 128 elements, whose has/remove are wrong; 33 to 128 elements are rejected by the compiler."
  },
  {
   "property": "C43",
   "status": "partial",
   "theorems": [
    "C43_queue_partial",
    "C43_remove_refuted"
   ],
   "note": "Missing: remove_at of an index other than 0, which breaks the heap (refuted)."
  },
  {
   "property": "C44",
   "status": "proved",
   "theorems": [
    "C44_quicksort",
    "C44_quicksort_range"
   ],
   "note": ""
  },
  {
   "property": "C45",
   "status": "partial",
   "theorems": [
    "C45_quickselect_partial",
    "C45_single_refuted",
    "C45_retries_refuted"
   ],
   "note": "Whenever an element is returned it has the asked rank. Missing: an answer for every index; false for one-element lists and after the 64-retry limit."
  },
  {
   "property": "C46",
   "status": "proved",
   "theorems": [
    "C46_insertionsort"
   ],
   "note": ""
  },
  {
   "property": "C47",
   "status": "partial",
   "theorems": [
    "C47_countingsort_partial",
    "C47_signed_refuted"
   ],
   "note": "Missing: signed element types with negative values, for which the order is wrong."
  },
  {
   "property": "C48",
   "status": "partial",
   "theorems": [
    "C48_binarysearch",
    "C48_is_sorted_partial",
    "C48_is_sorted_refuted"
   ],
   "note": "is_sorted is exact unless the product of two comparison results wraps."
  },
  {
   "property": "C49",
   "status": "proved",
   "theorems": [
    "C49_linearizable",
    "C49_real_time",
    "C49_fifo",
    "C49_close",
    "C49_no_lost_wakeup",
    "C49_terminates"
   ],
   "note": ""
  },
  {
   "property": "C50",
   "status": "partial",
   "theorems": [
    "C50_rendezvous_partial",
    "C50_progress_partial",
    "C50_terminates_partial",
    "C50_locks",
    "C50_two_senders_refuted",
    "C50_two_senders_no_spurious_refuted",
    "C50_two_receivers_refuted",
    "C50_spurious_wakeup_refuted",
    "C50_close_refuted",
    "C50_uninitialised_refuted"
   ],
   "note": "Proved for one sender and one receiver without close and without spurious wake-ups of the sender; for any threads and schedules no mutex is left locked by a returned call; refuted for two senders, two receivers, spurious wake-ups, a close during a push, and because init does not clear `closed`."
  },
  {
   "property": "C51",
   "status": "partial",
   "theorems": [
    "C51_lexer_safe_partial",
    "C51_escape_refuted",
    "C51_recovery_refuted"
   ],
   "note": "Proved for files without a byte above 127 right after a backslash-x/u/U escape; the error recovery at the end of the file reads past the NUL."
  },
  {
   "property": "C52",
   "status": "proved",
   "theorems": [
    "C52_maximal_munch"
   ],
   "note": ""
  },
  {
   "property": "C53",
   "status": "proved",
   "theorems": [
    "C53_identifiers",
    "C53_prefixed"
   ],
   "note": ""
  },
  {
   "property": "C54",
   "status": "partial",
   "theorems": [
    "C54_clean_partial",
    "C54_utf16_refuted"
   ],
   "note": "Missing: files whose first byte is FF or second FE, refused as UTF-16 whatever the other byte is."
  },
  {
   "property": "C55",
   "status": "proved",
   "theorems": [
    "C55_char_bytes",
    "C55_char_utf8",
    "C55_char_escape"
   ],
   "note": ""
  },
  {
   "property": "C56",
   "status": "partial",
   "theorems": [
    "C56_struct_partial",
    "C56_union_partial",
    "C56_tree_partial",
    "C56_nested_packed_refuted",
    "C56_union_refuted"
   ],
   "note": "Missing: members whose own type is packed, under-aligned or a union with over-aligned members (refuted)."
  },
  {
   "property": "C57",
   "status": "partial",
   "theorems": [
    "C57_int_read",
    "C57_int_write",
    "C57_int_read_back",
    "C57_int_others",
    "C57_int_round_trip",
    "C57_nested_init_refuted",
    "C57_array_read_partial",
    "C57_array_write_partial",
    "C57_array_read_back_partial",
    "C57_array_lost_value_refuted",
    "C57_array_lost_neighbour_refuted",
    "C57_array_assert_refuted",
    "C57_wide_array_refuted"
   ],
   "note": "Complete for integer containers. Missing for arrays: writes to members that neither end with a byte nor lie inside the first one, members of odd size in the other byte order, arrays of wider integers, nested designated initialisers in the other byte order (all refuted)."
  },
  {
   "property": "C58",
   "status": "partial",
   "theorems": [
    "C58_int_same",
    "C58_int_values",
    "C58_array_values_partial",
    "C58_array_same_refuted",
    "C58_overlap_refuted"
   ],
   "note": "Complete for integer containers. For arrays the constant is right and the run-time code is not (refuted)."
  },
  {
   "property": "C59",
   "status": "partial",
   "theorems": [
    "C59_index",
    "C59_index_simple",
    "C59_index_check_partial",
    "C59_assign",
    "C59_designated",
    "C59_range_partial",
    "C59_range_accepted",
    "C59_slice_partial",
    "C59_foreach_partial",
    "C59_emitted",
    "C59_index_check_refuted",
    "C59_range_refuted",
    "C59_slice_sparse_refuted",
    "C59_slice_nul_refuted",
    "C59_foreach_refuted",
    "C59_emitted_vector_refuted"
   ],
   "note": "Missing: indices over 32 bits, ranges that end after the constant, slices of sparse arrays that do not start at 0, of strings with NUL, $foreach over zero and sparse slices, the LLVM type of sparse vectors (all refuted)."
  },
  {
   "property": "C60",
   "status": "partial",
   "theorems": [
    "C60_switch_partial",
    "C60_switch_values",
    "C60_switch_type",
    "C60_switch_accepted",
    "C60_switch_repeated_partial",
    "C60_nextcase",
    "C60_nextcase_missing",
    "C60_switch_refuted"
   ],
   "note": "Missing: a range of literals after the matching case (refuted); a case that is not a literal is not compared once a case matched."
  },
  {
   "property": "C61",
   "status": "partial",
   "theorems": [
    "C61_round_trip_partial",
    "C61_round_trip_refuted",
    "C61_add_target_partial",
    "C61_add_libraries_partial",
    "C61_add_libraries_succeeds",
    "C61_add_libraries_refuted",
    "C61_set_then_get",
    "C61_set_once_refuted"
   ],
   "note": "Proved for values without null, with strings that need no escapes and with non-negative numbers of at most six decimals: the written text is an RFC document of the value and reads back as it, and both commands change only what they should. Refuted otherwise: null in an array crashes, null members and strings with quotes give unreadable files, backslashes change, numbers are cut; adding libraries to a project without dependencies crashes; setting a present member doubles it. Comments in the file are lost by design and are not modelled as content."
  },
  {
   "property": "C62",
   "status": "partial",
   "theorems": [
    "C62_defers_partial",
    "C62_defers_refuted"
   ],
   "note": "Proved for every accepted body without a broken-out-of labelled if with constant condition, while(false) with a body, an empty endless loop, or a macro call right of ||; refuted for those. Simplified: expressions are opaque events; no foreach, try/catch unwrapping conditions, compile-time statements or trailing macro bodies."
  },
  {
   "property": "C63",
   "status": "partial",
   "theorems": [
    "C63_returns_partial",
    "C63_returns_refuted"
   ],
   "note": "As C62; refuted for the labelled if and for a macro that does not return right of ||."
  },
  {
   "property": "C64",
   "status": "partial",
   "theorems": [
    "C64_analysis_ends_partial",
    "C64_analysis_ends_refuted"
   ],
   "note": "Proved for nesting up to 127 without empty cases except the last; refuted: 256 empty cases in a row abort the compiler."
  },
  {
   "property": "C65",
   "status": "partial",
   "theorems": [
    "C65_arena_partial",
    "C65_shrink_refuted",
    "C65_full_refuted"
   ],
   "note": "Proved for histories that do not shrink a block below the top while little room is left, and, in safe mode, do not release or resize while the buffer is exactly full; both exclusions are refuted."
  },
  {
   "property": "C66",
   "status": "partial",
   "theorems": [
    "C66_onstack_partial",
    "C66_zero_refuted",
    "C66_shrink_refuted",
    "C66_huge_refuted"
   ],
   "note": "Proved for every correct backing allocator; excluded, and refuted: zeroed blocks taken from the buffer, shrinking a buffer block when little room is left, sizes above 2^62."
  },
  {
   "property": "C67",
   "status": "partial",
   "theorems": [
    "C67_pools_partial",
    "C67_align_refuted",
    "C67_resize_align_refuted",
    "C67_retry_refuted",
    "C67_pop2_refuted",
    "C67_huge_refuted"
   ],
   "note": "Proved for all histories with alignments up to 32, sizes up to 2^62 and pools left one at a time; refuted outside: pages for larger alignments are too small, in-place resizing ignores alignment, a second resize after a failed one crashes, leaving two pools at once uses freed memory, sizes near 2^64 wrap."
  },
  {
   "property": "C68",
   "status": "partial",
   "theorems": [
    "C68_roundtrip_partial",
    "C68_refuses_partial",
    "C68_wrap_refuted"
   ],
   "note": "Proved for every image whose true number of pixels is within the limit; refuted for sizes whose product wraps at 2^32: accepted by encode, not decodable."
  },
  {
   "property": "C69",
   "status": "partial",
   "theorems": [
    "C69_encoder_conforms",
    "C69_decoder_conforms_partial",
    "C69_decoder_conforms_refuted"
   ],
   "note": "Encoder: proved in full. Decoder: proved for streams that do not begin with a run and whose index chunks refer to recorded pixels; refuted otherwise (a leading run is not recorded)."
  },
  {
   "property": "C70",
   "status": "partial",
   "theorems": [
    "C70_decode_safe_partial",
    "C70_truncated_refuted"
   ],
   "note": "The size and description of every result are proved for all data; reading outside is excluded for data with at least five bytes per announced pixel and refuted for truncated data."
  },
  {
   "property": "C71",
   "status": "proved",
   "theorems": [
    "C71_add",
    "C71_sub",
    "C71_negate",
    "C71_order",
    "C71_construct"
   ],
   "note": "Sums, differences and negations exact or stopped; order and constructors exact."
  },
  {
   "property": "C72",
   "status": "partial",
   "theorems": [
    "C72_mult_partial",
    "C72_mult_refuted"
   ],
   "note": "Every returned product is exact, out of range stops, and it is returned when product and operands are above -2^8191; refuted for the product -2^8191, which stops the program."
  },
  {
   "property": "C73",
   "status": "partial",
   "theorems": [
    "C73_division_partial",
    "C73_zero_divisor",
    "C73_quotient_refuted",
    "C73_remainder_refuted"
   ],
   "note": "Proved for divisors of one word and for dividends smaller than the divisor; refuted for divisors of several words (wrong quotients, remainders larger than the divisor)."
  },
  {
   "property": "C74",
   "status": "partial",
   "theorems": [
    "C74_text_partial",
    "C74_read_sound",
    "C74_text_refuted",
    "C74_read_refuted"
   ],
   "note": "Proved for all numbers but -2^8191, which cannot be written; \"-0\" is refused as an overflow and the empty text is read out of bounds."
  },
  {
   "property": "C75",
   "status": "proved",
   "theorems": [
    "C75_bitwise",
    "C75_bitcount"
   ],
   "note": ""
  },
  {
   "property": "C76",
   "status": "partial",
   "theorems": [
    "C76_shift_left_partial",
    "C76_shift_left_refuted",
    "C76_shift_right_refuted"
   ],
   "note": "Left: proved when no further word is needed, with the exact law otherwise (higher words are lost); refuted in general. Right: refuted, the operand is returned unchanged."
  },
  {
   "property": "C77",
   "status": "partial",
   "theorems": [
    "C77_sqrt_partial",
    "C77_sqrt_refuted"
   ],
   "note": "Proved for 0 < n < 2^8190, stops above; the root of 0 is not the number 0."
  },
  {
   "property": "C78",
   "status": "partial",
   "theorems": [
    "C78_gcd_partial",
    "C78_gcd_refuted",
    "C78_lcm_refuted"
   ],
   "note": "Proved when one operand has one word; refuted for longer operands (through the division); lcm(0, 0) stops the program."
  },
  {
   "property": "C79",
   "status": "partial",
   "theorems": [
    "C79_mod_pow_partial",
    "C79_mod_pow_refuted"
   ],
   "note": "Proved for moduli of one word coprime to the base and any exponent; refuted where an intermediate product is 0 (the reduction's length assertion fails)."
  },
  {
   "property": "C80",
   "status": "partial",
   "theorems": [
    "C80_grammar",
    "C80_accepts",
    "C80_accepts_only_partial",
    "C80_grammar_refuted"
   ],
   "note": "Every number of c3.l is read as one token; the language accepted is characterised exactly (number, in LexNumSpec) and is wider than c3.l: \"1_.5\", \"1_e5\", \"1.\", \"0x1.8\", any width after u, i, f (checked later, C06)."
  },
  {
   "property": "C81",
   "status": "proved",
   "theorems": [
    "C81_unsigned",
    "C81_signed",
    "C81_by_zero"
   ],
   "note": "All inputs. The machine operations on ulong and the few uint128 operations the routines use themselves are taken as exact."
  },
  {
   "property": "C82",
   "status": "proved",
   "theorems": [
    "C82_multiply"
   ],
   "note": "All inputs."
  },
  {
   "property": "C83",
   "status": "partial",
   "theorems": [
    "C83_logical_right",
    "C83_arithmetic_right_refuted",
    "C83_arithmetic_right_partial",
    "C83_left_refuted",
    "C83_left_partial"
   ],
   "note": "Arithmetic right shift is wrong for negative numbers, left shift for amounts of 64 and more (both refuted); proved elsewhere."
  },
  {
   "property": "C84",
   "status": "partial",
   "theorems": [
    "C84_unsigned",
    "C84_signed_refuted",
    "C84_signed_partial"
   ],
   "note": "Unsigned: all. Signed: all but -2^127, for which the result is wrong (refuted)."
  },
  {
   "property": "C85",
   "status": "proved",
   "theorems": [
    "C85_unsigned",
    "C85_signed"
   ],
   "note": "All finite values, both formats."
  },
  {
   "property": "C86",
   "status": "partial",
   "theorems": [
    "C86_pieces_partial"
   ],
   "note": "MD5: all pieces. SHA-256: pieces below 2^29 bytes. SHA-1: pieces up to 2^32 - 64 bytes. Beyond, C87_sha256_refuted and C88_sha1_refuted show what goes wrong."
  },
  {
   "property": "C87",
   "status": "partial",
   "theorems": [
    "C87_sha256_partial",
    "C87_sha256_any",
    "C87_sha256_refuted"
   ],
   "note": "Proved for pieces below 2^29 bytes; for all pieces it is proved exactly which padded message is hashed, and that it is not the right one for a longer piece."
  },
  {
   "property": "C88",
   "status": "partial",
   "theorems": [
    "C88_sha1_partial",
    "C88_sha1_refuted"
   ],
   "note": "Proved for pieces up to 2^32 - 64 bytes; a piece of uint.max bytes after one byte writes out of bounds (refuted)."
  },
  {
   "property": "C89",
   "status": "proved",
   "theorems": [
    "C89_md5"
   ],
   "note": "All lengths. The table of sines in the specification is the table printed in RFC 1321."
  },
  {
   "property": "C90",
   "status": "partial",
   "theorems": [
    "C90_hmac_partial"
   ],
   "note": "All keys and messages within the piece limits of C87 and C88; MD5 without limits."
  },
  {
   "property": "C91",
   "status": "partial",
   "theorems": [
    "C91_pbkdf2_partial",
    "C91_pbkdf2_refuted"
   ],
   "note": "1 to 2^31 - 1 iterations; from 2^31 on the loop never ends (refuted). The iteration count 0 is outside RFC 8018."
  },
  {
   "property": "C92",
   "status": "proved",
   "theorems": [
    "C92_crc"
   ],
   "note": "All messages. Crc64.init takes a uint seed, so a CRC-64 cannot be continued from a finished value; that is not claimed."
  },
  {
   "property": "C93",
   "status": "proved",
   "theorems": [
    "C93_checksums"
   ],
   "note": "All messages."
  },
  {
   "property": "C94",
   "status": "proved",
   "theorems": [
    "C94_rc4"
   ],
   "note": "Input and output of Rc4.crypt are the same memory or do not overlap."
  },
  {
   "property": "C95",
   "status": "partial",
   "theorems": [
    "C95_instances_partial",
    "C95_instances_refuted"
   ],
   "note": "Proved for programs whose generic modules have distinct paths when \"::\" and \"_\" are identified and none named like a type prefix (p, sa, a1, v1, any ...), with arguments that are not function types, faults or exported types and constants of one type per parameter; the whole standard library meets the condition on modules. The full statement is refuted eight ways."
  },
  {
   "property": "C96",
   "status": "partial",
   "theorems": [
    "C96_symbols_partial",
    "C96_typeids_partial",
    "C96_symbols_refuted"
   ],
   "note": "Proved for declarations that are not exported or extern, methods of built-in and declared types. Refuted for exported names, private methods added to a type of another module, methods of slices, and typeids of function types."
  },
  {
   "property": "C97",
   "status": "proved",
   "theorems": [
    "C97_first",
    "C97_last",
    "C97_contains",
    "C97_bytes",
    "C97_affixes"
   ],
   "note": ""
  },
  {
   "property": "C98",
   "status": "partial",
   "theorems": [
    "C98_split",
    "C98_join",
    "C98_join_glue",
    "C98_buffer",
    "C98_splitter_partial",
    "C98_nonempty_refuted"
   ],
   "note": "Proved in full for split, split_to_buffer and join. Missing: the splitter does not visit a last empty piece, and the declared guarantee that the result has a piece fails when all pieces are empty and skipped (refuted)."
  },
  {
   "property": "C99",
   "status": "proved",
   "theorems": [
    "C99_trim",
    "C99_case"
   ],
   "note": ""
  },
  {
   "property": "C100",
   "status": "partial",
   "theorems": [
    "C100_numbers_partial",
    "C100_accepted_partial",
    "C100_errors",
    "C100_refuted"
   ],
   "note": "Proved: numbers in range are read exactly, others are refused or read modulo the width; accepted texts are numbers, but for the characters : to ? in base 16. The full statement is refuted: \"0x:\" is read as 10, \"300\" as an ichar is 44."
  },
  {
   "property": "C101",
   "status": "partial",
   "theorems": [
    "C101_view",
    "C101_zero_terminated",
    "C101_step",
    "C101_history",
    "C101_new",
    "C101_copy",
    "C101_concat",
    "C101_join",
    "C101_null_refuted"
   ],
   "note": "Proved for all operations; the one exception is replace_char on a string that was never given memory, which follows a null pointer (refuted). The operations that format or read from a stream, and operations given a view of the string itself (C104), are not part of the histories."
  },
  {
   "property": "C102",
   "status": "partial",
   "theorems": [
    "C102_only_occurrences",
    "C102_every_occurrence_partial",
    "C102_every_occurrence_refuted",
    "C102_empty_needle_refuted"
   ],
   "note": "Proved: only occurrences are replaced, for all non-empty needles; all of them for needles of one byte. That all are replaced is refuted for longer needles, and an empty needle is read outside."
  },
  {
   "property": "C103",
   "status": "partial",
   "theorems": [
    "C103_equals",
    "C103_less_partial",
    "C103_order_refuted"
   ],
   "note": "equals is proved in full (lengths below 2^31: the index is an int). less is characterised exactly; that it is an order is refuted."
  },
  {
   "property": "C104",
   "status": "partial",
   "theorems": [
    "C104_append_own_partial",
    "C104_insert_own_partial",
    "C104_own_refuted"
   ],
   "note": "Proved when the capacity suffices and, for insertion, when the part does not start at the first byte. Refuted otherwise: the part is read after it was freed, or not inserted at all."
  },
  {
   "property": "C105",
   "status": "partial",
   "theorems": [
    "C105_in_bounds",
    "C105_same_place",
    "C105_idempotent",
    "C105_canonical_partial",
    "C105_canonical_refuted",
    "C105_zstr_partial",
    "C105_zstr_refuted",
    "C105_drive",
    "C105_drive_refuted"
   ],
   "note": "Proved for all POSIX strings: in bounds, same place and rootedness, idempotent. Shortest text and exact refusals are proved for paths without two-byte elements such as \".b\" and refuted with them; the zero-terminated text is right unless the path is \".\", and refuted for that. WIN32 is proved for paths with a drive letter and a root and refuted for a drive without root; UNC volumes are modelled but have no theorem."
  },
  {
   "property": "C106",
   "status": "partial",
   "theorems": [
    "C106_parts",
    "C106_parent_partial",
    "C106_parent_refuted",
    "C106_has_extension",
    "C106_extension",
    "C106_extension_refuted",
    "C106_append_partial",
    "C106_append_refuted"
   ],
   "note": "POSIX. basename, dirname, has_extension and extension are characterised for all paths. That the parent of a rooted path is rooted, that extension and has_extension agree, and that a text can be appended to every path are refuted."
  },
  {
   "property": "C107",
   "status": "partial",
   "theorems": [
    "C107_plain",
    "C107_digits",
    "C107_integer_partial",
    "C107_integer_refuted"
   ],
   "note": "Without flags, width and precision: proved for every integer of 128 bits and all bases. With them: proved except for a precision together with the flag -, zeros up to a width together with a prefix, a zero without digits together with a width, and more than 256 bytes; each of these is refuted."
  },
  {
   "property": "C108",
   "status": "partial",
   "theorems": [
    "C108_text_partial",
    "C108_text_refuted"
   ],
   "note": "Proved for all well-formed formats without floating-point conversions; the conditions of C107 and C110 apply, and a precision for %s only to strings. Refuted for a precision over slices (it becomes leading zeros of the numbers in it) and for widths from 2^31 on."
  },
  {
   "property": "C109",
   "status": "partial",
   "theorems": [
    "C109_count_partial",
    "C109_count_refuted"
   ],
   "note": "The exact difference is proved: the spaces around integers, and all bytes of a character but one, are not counted. So the claim is refuted in general."
  },
  {
   "property": "C110",
   "status": "partial",
   "theorems": [
    "C110_char_partial",
    "C110_replacement",
    "C110_char_refuted"
   ],
   "note": "Proved for all scalar values but 0x7F, 0x7FF and 0xFFFF, for which it is refuted, without a width; with a width it is refuted."
  },
  {
   "property": "C111",
   "status": "proved",
   "theorems": [
    "C111_buffer"
   ],
   "note": "For every format and all arguments of the kinds modelled. A floating-point conversion, or a read past the end of the format, shows as the outcome Stuck."
  },
  {
   "property": "C112",
   "status": "partial",
   "theorems": [
    "C112_in_bounds_partial",
    "C112_in_bounds_refuted"
   ],
   "note": "Proved for every format that does not end with a digit and holds none of the letters of floating-point conversions; refuted for formats that end with a width or precision."
  },
  {
   "property": "C113",
   "status": "proved",
   "theorems": [
    "C113_path_suffix",
    "C113_path_text",
    "C113_related"
   ],
   "note": ""
  },
  {
   "property": "C114",
   "status": "proved",
   "theorems": [
    "C114_sound",
    "C114_clash",
    "C114_no_null"
   ],
   "note": "For programs as registration leaves them (WellFormed). Members of generic modules, methods and compile time variables are not modelled."
  },
  {
   "property": "C115",
   "status": "partial",
   "theorems": [
    "C115_function_scope",
    "C115_complete_partial",
    "C115_not_silent_partial",
    "C115_nothing",
    "C115_local_refuted",
    "C115_std_refuted"
   ],
   "note": "Without a path: proved for all programs. With a path: proved except for @local declarations and the path std, for which it is refuted."
  },
  {
   "property": "C116",
   "status": "partial",
   "theorems": [
    "C116_order_partial",
    "C116_imports_refuted",
    "C116_weak_refuted"
   ],
   "note": "Proved for programs without `import \u2026 @public` and @weak aliases; refuted with either."
  },
  {
   "property": "C117",
   "status": "partial",
   "theorems": [
    "C117_distance_partial",
    "C117_edits_refuted",
    "C117_bounds_refuted"
   ],
   "note": "What holds: for names of which the first is at most one byte longer, no byte outside is read, the result does not depend on the uninitialised table, is 0 for equal names only, and lies between the difference and the greater of the lengths. It is not the edit distance, and for all other lengths it reads past the end: both proved."
  },
  {
   "property": "C118",
   "status": "partial",
   "theorems": [
    "C118_small_types_by_eightbyte",
    "C118_large_types_in_memory_partial",
    "C118_union_with_vector_refuted"
   ],
   "note": "Full for types of at most 16 bytes. Larger types: proved unless they contain vectors of 16 bytes or more and fit a vector register; for those a compiler crash is proved."
  },
  {
   "property": "C119",
   "status": "proved",
   "theorems": [
    "C119_registers_in_order"
   ],
   "note": "For signatures whose types are classified as in C118, when the compiler does not fail (see C121)."
  },
  {
   "property": "C120",
   "status": "proved",
   "theorems": [
    "C120_padding_exact",
    "C120_integers_hold_their_data"
   ],
   "note": ""
  },
  {
   "property": "C121",
   "status": "partial",
   "theorems": [
    "C121_arguments_arrive_partial",
    "C121_union_of_floats_refuted",
    "C121_nested_struct_refuted",
    "C121_overaligned_member_refuted"
   ],
   "note": "Proved for types without spare padding that have no floats or no unions and no padded nested structs, and for all that go in memory. Refuted in general by three types."
  },
  {
   "property": "C122",
   "status": "partial",
   "theorems": [
    "C122_ipv4_text_partial",
    "C122_long_numbers_refuted",
    "C122_ipv4_round_trip"
   ],
   "note": "Exact for texts with no run of ten or more digits; with longer runs numbers wrap and are accepted, which is proved."
  },
  {
   "property": "C123",
   "status": "partial",
   "theorems": [
    "C123_in_bounds",
    "C123_accepts_partial",
    "C123_accepts_refuted",
    "C123_only_addresses_partial",
    "C123_only_addresses_refuted",
    "C123_long_groups_refuted",
    "C123_ipv6_round_trip"
   ],
   "note": "Bounds and round trip in full. Exact for texts with groups of at most four digits and no lone colon at the ends, where :: stands for two groups or more; each condition is shown necessary."
  },
  {
   "property": "C124",
   "status": "partial",
   "theorems": [
    "C124_ipv4_classes",
    "C124_ipv6_classes_partial",
    "C124_ipv6_classes_refuted"
   ],
   "note": "IPv4 in full; of IPv6 loopback and unspecified. Link-local, site-local and multicast IPv6 addresses are proved never to be recognised."
  },
  {
   "property": "C125",
   "status": "partial",
   "theorems": [
    "C125_read_buffer_partial",
    "C125_again_refuted"
   ],
   "note": "In full up to the first EOF; after it stale bytes are handed out, which is proved."
  },
  {
   "property": "C126",
   "status": "partial",
   "theorems": [
    "C126_write_buffer_partial",
    "C126_flush_partial",
    "C126_short_refuted"
   ],
   "note": "In full for a wrapped stream that takes all it is given; after a short write bytes are lost and repeated, which is proved."
  },
  {
   "property": "C127",
   "status": "partial",
   "theorems": [
    "C127_byte_buffer_partial",
    "C127_fixed_partial",
    "C127_grow_refuted",
    "C127_max_read_refuted"
   ],
   "note": "While no more is written than the initial capacity; growing is proved to fail."
  },
  {
   "property": "C128",
   "status": "partial",
   "theorems": [
    "C128_byte_writer_partial",
    "C128_fixed_partial",
    "C128_exact_fit_refuted",
    "C128_empty_refuted",
    "C128_read_from_partial",
    "C128_read_from_eof_refuted",
    "C128_read_from_short_refuted"
   ],
   "note": "Writes that are not empty; a fixed writer refuses an exact fit; read_from for streams that hand out what is asked for, up to the answer."
  },
  {
   "property": "C129",
   "status": "partial",
   "theorems": [
    "C129_scanner_partial",
    "C129_flush_refuted",
    "C129_short_refuted",
    "C129_straddle_refuted"
   ],
   "note": "Delimiters of one byte, pieces shorter than the buffer, a stream that hands out what is asked for; each other case is refuted."
  },
  {
   "property": "C130",
   "status": "partial",
   "theorems": [
    "C130_limit_reader",
    "C130_limit_takes",
    "C130_available_refuted"
   ],
   "note": "Reading in full; available overstates, which is proved."
  },
  {
   "property": "C131",
   "status": "partial",
   "theorems": [
    "C131_multi_reader_partial",
    "C131_again_refuted"
   ],
   "note": "In full up to the first EOF for at least one stream; after it the program stops."
  },
  {
   "property": "C132",
   "status": "proved",
   "theorems": [
    "C132_tee",
    "C132_tee_copies",
    "C132_multi_writer"
   ],
   "note": "TeeReader for a writer that takes all it is given; MultiWriter for all writers."
  },
  {
   "property": "C133",
   "status": "partial",
   "theorems": [
    "C133_byte_reader",
    "C133_seek",
    "C133_pushback",
    "C133_available_partial",
    "C133_available_refuted"
   ],
   "note": "All but available after seeking beyond the end."
  },
  {
   "property": "C134",
   "status": "proved",
   "theorems": [
    "C134_copy",
    "C134_copy_full"
   ],
   "note": ""
  },
  {
   "property": "C135",
   "status": "proved",
   "theorems": [
    "C135_readline",
    "C135_lines"
   ],
   "note": ""
  },
  {
   "property": "C136",
   "status": "partial",
   "theorems": [
    "C136_read_all_partial",
    "C136_read_all_sound",
    "C136_read_fully_partial",
    "C136_read_all_refuted",
    "C136_read_fully_refuted"
   ],
   "note": "read_all for streams that hand out what is asked for; read_fully for streams that say truly what is available."
  },
  {
   "property": "C137",
   "status": "partial",
   "theorems": [
    "C137_varint_partial",
    "C137_varint_refuted",
    "C137_signed_refuted"
   ],
   "note": "Unsigned numbers below 2^29; larger ones and signed ones are refuted. For 64-bit types the shift is done in 32 bits and is not modelled."
  },
  {
   "property": "C138",
   "status": "partial",
   "theorems": [
    "C138_big_endian",
    "C138_bytes",
    "C138_bytearray_partial",
    "C138_bytearray_refuted"
   ],
   "note": "Integers in full; byte arrays for streams that hand out what is asked for."
  },
  {
   "property": "C139",
   "status": "partial",
   "theorems": [
    "C139_disjoint_partial",
    "C139_huge_refuted"
   ],
   "note": "Requests up to 2^64 - 32 bytes; above, a block of 0 bytes may be handed out, which is proved. Requests with an explicit alignment are not modelled."
  },
  {
   "property": "C140",
   "status": "partial",
   "theorems": [
    "C140_allocation_partial",
    "C140_resize_partial",
    "C140_defined_partial"
   ],
   "note": "Requests up to 2^64 - 32 bytes; see C139."
  },
  {
   "property": "C141",
   "status": "partial",
   "theorems": [
    "C141_coalesced_partial"
   ],
   "note": "Requests up to 2^64 - 32 bytes; see C139."
  },
  {
   "property": "C142",
   "status": "proved",
   "theorems": [
    "C142_full_period"
   ],
   "note": ""
  },
  {
   "property": "C143",
   "status": "proved",
   "theorems": [
    "C143_quarter_period"
   ],
   "note": ""
  },
  {
   "property": "C144",
   "status": "proved",
   "theorems": [
    "C144_no_return",
    "C144_lossless"
   ],
   "note": ""
  },
  {
   "property": "C145",
   "status": "partial",
   "theorems": [
    "C145_in_range",
    "C145_unbiased",
    "C145_returns_partial",
    "C145_bounds_partial",
    "C145_all_ints_refuted"
   ],
   "note": "next is proved in full for what it gives; that it returns is proved for the Lcg, Pcg, Mcg and SimpleRandom generators, not for Sfc and Msws, whose orbits are not known. next_in_range fails for the range of all ints, which is proved."
  },
  {
   "property": "C146",
   "status": "partial",
   "theorems": [
    "C146_wide_partial",
    "C146_bytes",
    "C146_sfc128_refuted"
   ],
   "note": "All but next_long of Sfc128Random, whose upper half is proved to be 0."
  },
  {
   "property": "C147",
   "status": "partial",
   "theorems": [
    "C147_seeds_partial",
    "C147_srand",
    "C147_one_word_refuted"
   ],
   "note": "States of whole words of 64 bits, at least two; for one word two seeds with the same state are given."
  },
  {
   "property": "C148",
   "status": "partial",
   "theorems": [
    "C148_disjoint_partial",
    "C148_release_refuted",
    "C148_shrink_refuted",
    "C148_grow_refuted"
   ],
   "note": "Proved for programs that release or grow the first block of the current page only while it is the last one, do not shrink it, and do not shrink a block with an alignment it lacks; each of the first three is refuted by a run."
  },
  {
   "property": "C149",
   "status": "partial",
   "theorems": [
    "C149_acquire_partial",
    "C149_resize_partial",
    "C149_release_partial",
    "C149_overrun_refuted"
   ],
   "note": "The same restriction; the fourth is refuted by a run. Requests that wrap 64 bits are left out."
  },
  {
   "property": "C150",
   "status": "partial",
   "theorems": [
    "C150_index",
    "C150_from_end_partial",
    "C150_from_end_refuted",
    "C150_vector_refuted",
    "C150_rejected_partial",
    "C150_rejected_refuted"
   ],
   "note": "a[i] of arrays and slices is proved in full. ^i is proved for 0 <= i <= length and refuted beyond; vectors are not checked; constant indices of 2^31 and more are rejected where the length is unknown."
  },
  {
   "property": "C151",
   "status": "partial",
   "theorems": [
    "C151_sound_partial",
    "C151_complete_partial",
    "C151_no_assertion",
    "C151_pointer_partial",
    "C151_rejects_partial",
    "C151_length_refuted",
    "C151_from_end_refuted",
    "C151_constant_refuted",
    "C151_empty_refuted"
   ],
   "note": "Excluded, each with a refutation: lengths that are negative or overflow, a constant ^ start with a dynamic end on a known length, constants beyond 31 bits, the empty rest of an object of known length."
  },
  {
   "property": "C152",
   "status": "partial",
   "theorems": [
    "C152_constant_partial",
    "C152_constant_refuted",
    "C152_sparse_partial",
    "C152_sparse_refuted"
   ],
   "note": "Proved for ranges inside the constant, and for sparse arrays cut at 0; refuted otherwise."
  },
  {
   "property": "C153",
   "status": "partial",
   "theorems": [
    "C153_known_length_partial",
    "C153_known_length_refuted"
   ],
   "note": "All but a length counted from the end of an object of unknown length."
  },
  {
   "property": "C154",
   "status": "partial",
   "theorems": [
    "C154_assign_partial",
    "C154_pointer_refuted"
   ],
   "note": "Under the hypotheses of C151; through a pointer a negative constant start stops the compiler."
  },
  {
   "property": "C155",
   "status": "partial",
   "theorems": [
    "C155_shift_partial",
    "C155_constant",
    "C155_shift_refuted"
   ],
   "note": "Proved if the right side is not wider than the left one, and for constants."
  },
  {
   "property": "C156",
   "status": "partial",
   "theorems": [
    "C156_ordinal_partial",
    "C156_ordinal_refuted"
   ],
   "note": "Proved if the type of the number can hold the number of values."
  },
  {
   "property": "C157",
   "status": "proved",
   "theorems": [
    "C157_once"
   ],
   "note": ""
  },
  {
   "property": "C158",
   "status": "partial",
   "theorems": [
    "C158_stop",
    "C158_destroy_fixed",
    "C158_destroy_refuted"
   ],
   "note": "stop_and_destroy is proved for both pools, destroy for FixedThreadPool; for ThreadPool destroy is refuted by a run."
  },
  {
   "property": "C159",
   "status": "partial",
   "theorems": [
    "C159_shutdown_ends_partial",
    "C159_init_refuted"
   ],
   "note": "Proved for pools whose threads were all created; if one was not, the shutdown in init never returns."
  },
  {
   "property": "C160",
   "status": "proved",
   "theorems": [
    "C160_no_lost_job"
   ],
   "note": ""
  },
  {
   "property": "C161",
   "status": "partial",
   "theorems": [
    "C161_disjoint_partial",
    "C161_aligned_refuted"
   ],
   "note": "Proved for alignments up to 16 and for larger ones that divide the size; refuted for the others."
  },
  {
   "property": "C162",
   "status": "partial",
   "theorems": [
    "C162_acquire_partial",
    "C162_resize_partial",
    "C162_others_partial",
    "C162_shrink_refuted",
    "C162_reset_overrun_refuted",
    "C162_reset_release_refuted"
   ],
   "note": "Proved for resizes that do not shrink and for resets in fast mode; shrinking and resets in safe mode are refuted."
  },
  {
   "property": "C163",
   "status": "partial",
   "theorems": [
    "C163_destroy_partial",
    "C163_refused_refuted"
   ],
   "note": "Proved if the backing allocator never refuses; a refused resize of a page loses it."
  },
  {
   "property": "C164",
   "status": "partial",
   "theorems": [
    "C164_fields_partial",
    "C164_unique",
    "C164_fields_refuted"
   ],
   "note": "Proved from 1970 to 2255 and for whole seconds from 1684; refuted outside."
  },
  {
   "property": "C165",
   "status": "partial",
   "theorems": [
    "C165_date_partial",
    "C165_overflow",
    "C165_round_trip_partial"
   ],
   "note": "Proved for the times of C164."
  },
  {
   "property": "C166",
   "status": "partial",
   "theorems": [
    "C166_months_partial",
    "C166_years_partial",
    "C166_units"
   ],
   "note": "Proved for the times of C164."
  },
  {
   "property": "C167",
   "status": "partial",
   "theorems": [
    "C167_offset_partial",
    "C167_to",
    "C167_with",
    "C167_add",
    "C167_months_partial",
    "C167_years_partial",
    "C167_offset_refuted"
   ],
   "note": "Proved for every history without adding 0 years or 0 months, which is refuted."
  },
  {
   "property": "C168",
   "status": "partial",
   "theorems": [
    "C168_compare",
    "C168_order_partial",
    "C168_years_partial",
    "C168_years_refuted"
   ],
   "note": "diff_years is proved if both or neither year is a leap year, or before March, and by date only; refuted otherwise."
  },
  {
   "property": "C169",
   "status": "partial",
   "theorems": [
    "C169_layout_partial",
    "C169_layout_refuted"
   ],
   "note": "Proved for years 1000-9999, six digits of microseconds, and offsets without negative minutes; the others and UNIXDATE outside of GMT are refuted."
  },
  {
   "property": "C170",
   "status": "partial",
   "theorems": [
    "C170_distinct_partial"
   ],
   "note": "Proved for RFC3339Z and DATETIME under the conditions of C169."
  },
  {
   "property": "C171",
   "status": "partial",
   "theorems": [
    "C171_elastic_partial",
    "C171_self_limit_refuted"
   ],
   "note": "Proved but for an array added to itself up to the limit, whose count is refuted."
  },
  {
   "property": "C172",
   "status": "partial",
   "theorems": [
    "C172_refuses_partial",
    "C172_refuses_refuted"
   ],
   "note": "Proved for all functions with a contract; get, set and swap have none, and push_front_try and pop_first stop instead of reporting (refuted)."
  },
  {
   "property": "C173",
   "status": "partial",
   "theorems": [
    "C173_walk",
    "C173_get_refuted"
   ],
   "note": "Proved for next, peek, has_next and reset; get is refuted."
  },
  {
   "property": "C174",
   "status": "proved",
   "theorems": [
    "C174_any_bytes"
   ],
   "note": "Sequences are those the decoder accepts (C35), which are more than UTF-8."
  },
  {
   "property": "C175",
   "status": "partial",
   "theorems": [
    "C175_view_partial",
    "C175_set",
    "C175_default_refuted"
   ],
   "note": "Proved for requests within the array; lengths that reach beyond it, which default lengths do, are not checked (refuted)."
  },
  {
   "property": "C176",
   "status": "partial",
   "theorems": [
    "C176_range_partial",
    "C176_exclusive_partial",
    "C176_exact",
    "C176_refuted"
   ],
   "note": "Proved exactly where it holds: not for int with ends 2^31 or more apart, nor for the Range of all values of a 64-bit type (refuted)."
  },
  {
   "property": "C177",
   "status": "partial",
   "theorems": [
    "C177_text",
    "C177_count_partial",
    "C177_count_refuted"
   ],
   "note": "The text is proved; the number returned is not the number of bytes written (refuted), it is shown what it is."
  },
  {
   "property": "C178",
   "status": "proved",
   "theorems": [
    "C178_read_row",
    "C178_each_row"
   ],
   "note": "Over the models of readline (C135) and split (C98)."
  },
  {
   "property": "C179",
   "status": "partial",
   "theorems": [
    "C179_free_partial",
    "C179_free_refuted"
   ],
   "note": "Holds but for empty lines ending in a line feed alone, whose text is a constant (refuted)."
  }
 ]
}