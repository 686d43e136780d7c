{
 "claims": [
  {
   "property": "C01",
   "status": "proved",
   "theorems": [
    "C01_push_heap_restores_heap",
    "C01_restore_up_every_k"
   ],
   "note": ""
  },
  {
   "property": "C02",
   "status": "proved",
   "theorems": [
    "C02_pop_heap_moves_greatest_last",
    "C02_heap_pop_every_k",
    "C02_pop_heap_class_types"
   ],
   "note": "Every restriction in the statement is needed: without it the claim is false of the code (C164)."
  },
  {
   "property": "C03",
   "status": "proved",
   "theorems": [
    "C03_make_heap"
   ],
   "note": "Every restriction in the statement is needed: without it the claim is false of the code (C165)."
  },
  {
   "property": "C04",
   "status": "proved",
   "theorems": [
    "C04_priority_queue_history",
    "C04_pop_removes_top"
   ],
   "note": ""
  },
  {
   "property": "C05",
   "status": "proved",
   "theorems": [
    "C05_erase_if"
   ],
   "note": "Every restriction in the statement is needed: without it the claim is false of the code (C166)."
  },
  {
   "property": "C06",
   "status": "proved",
   "theorems": [
    "C06_emplace_returns_element"
   ],
   "note": "Every restriction in the statement is needed: without it the claim is false of the code (C167)."
  },
  {
   "property": "C07",
   "status": "proved",
   "theorems": [
    "C07_bytes_come_out_in_order",
    "C07_every_call_refines_fifo",
    "C07_messages_arrive_whole_and_in_order"
   ],
   "note": "Capacity < 2^31 (the API reports sizes as int)."
  },
  {
   "property": "C08",
   "status": "proved",
   "theorems": [
    "C08_accounting",
    "C08_poll",
    "C08_offer_writes_only_free_space",
    "C08_unused_is_larger_gap"
   ],
   "note": ""
  },
  {
   "property": "C09",
   "status": "proved",
   "theorems": [
    "C09_refusal"
   ],
   "note": "Every restriction in the statement is needed: without it the claim is false of the code (C168)."
  },
  {
   "property": "C10",
   "status": "proved",
   "theorems": [
    "C10_drained_buffer_is_empty_and_whole",
    "C10_drained_buffer_takes_its_capacity"
   ],
   "note": ""
  },
  {
   "property": "C11",
   "status": "proved",
   "theorems": [
    "C11_numeral_exists_unique",
    "C11_to_chars_from_chars_round_trip",
    "C11_to_chars_exp_round_trip",
    "C11_from_chars_reads_numerals"
   ],
   "note": ""
  },
  {
   "property": "C12",
   "status": "proved",
   "theorems": [
    "C12_every_text_splits",
    "C12_from_chars_unsigned"
   ],
   "note": "Every restriction in the statement is needed: without it the claim is false of the code (C169)."
  },
  {
   "property": "C13",
   "status": "proved",
   "theorems": [
    "C13_from_chars_no_sign",
    "C13_from_chars_minus"
   ],
   "note": "Every restriction in the statement is needed: without it the claim is false of the code (C170)."
  },
  {
   "property": "C14",
   "status": "proved",
   "theorems": [
    "C14_to_chars",
    "C14_to_chars_opt",
    "C14_to_chars_exp"
   ],
   "note": "Every restriction in the statement is needed: without it the claim is false of the code (C171)."
  },
  {
   "property": "C15",
   "status": "proved",
   "theorems": [
    "C15_to_string",
    "C15_to_string_injective",
    "C15_to_string_opt"
   ],
   "note": "Every restriction in the statement is needed: without it the claim is false of the code (C172)."
  },
  {
   "property": "C16",
   "status": "proved",
   "theorems": [
    "C16_range",
    "C16_stream"
   ],
   "note": "Full, for character ranges and for operator>> on good streams over texts shorter than 65536 (plain)."
  },
  {
   "property": "C17",
   "status": "proved",
   "theorems": [
    "C17_exact",
    "C17_exact_range",
    "C17_no_digit",
    "C17_no_base"
   ],
   "note": "Every restriction in the statement is needed: without it the claim is false of the code (C173)."
  },
  {
   "property": "C18",
   "status": "proved",
   "theorems": [
    "C18_round_trip"
   ],
   "note": "The full statement, with its restrictions. All widths, bases 8/10/16, padding with spaces in front. Missing: the most negative value and long octal numerals (not written by operator<<, C15, C52)."
  },
  {
   "property": "C19",
   "status": "proved",
   "theorems": [
    "C19_deque_sequence",
    "C19_fifo"
   ],
   "note": "Every restriction in the statement is needed: without it the claim is false of the code (C174)."
  },
  {
   "property": "C20",
   "status": "proved",
   "theorems": [
    "C20_iteration"
   ],
   "note": "Every restriction in the statement is needed: without it the claim is false of the code (C175)."
  },
  {
   "property": "C21",
   "status": "partial",
   "theorems": [
    "C21_push_full_refuted",
    "C21_pop_empty_refuted"
   ],
   "note": "False in every reachable boundary state (capacity > 1): both refutations universal."
  },
  {
   "property": "C22",
   "status": "proved",
   "theorems": [
    "C22_push_front",
    "C22_rest_unchanged"
   ],
   "note": "Every restriction in the statement is needed: without it the claim is false of the code (C176)."
  },
  {
   "property": "C23",
   "status": "proved",
   "theorems": [
    "C23_find"
   ],
   "note": "Every restriction in the statement is needed: without it the claim is false of the code (C177)."
  },
  {
   "property": "C24",
   "status": "proved",
   "theorems": [
    "C24_unique",
    "C24_insertions",
    "C24_present"
   ],
   "note": "Every restriction in the statement is needed: without it the claim is false of the code (C178)."
  },
  {
   "property": "C25",
   "status": "proved",
   "theorems": [
    "C25_erase",
    "C25_erase_one"
   ],
   "note": "Every restriction in the statement is needed: without it the claim is false of the code (C179)."
  },
  {
   "property": "C26",
   "status": "proved",
   "theorems": [
    "C26_erase_end"
   ],
   "note": "Every restriction in the statement is needed: without it the claim is false of the code (C180)."
  },
  {
   "property": "C27",
   "status": "proved",
   "theorems": [
    "C27_vector_history",
    "C27_string_history",
    "C27_emplace_back"
   ],
   "note": "Every restriction in the statement is needed: without it the claim is false of the code (C181)."
  },
  {
   "property": "C28",
   "status": "proved",
   "theorems": [
    "C28_vector_overflow_stops",
    "C28_string_overflow_stops"
   ],
   "note": "Every restriction in the statement is needed: without it the claim is false of the code (C182)."
  },
  {
   "property": "C29",
   "status": "proved",
   "theorems": [
    "C29_append",
    "C29_append_string",
    "C29_assign_string",
    "C29_append_self",
    "C29_append_fill",
    "C29_copy"
   ],
   "note": "Every restriction in the statement is needed: without it the claim is false of the code (C183)."
  },
  {
   "property": "C30",
   "status": "proved",
   "theorems": [
    "C30_string_text",
    "C30_view_text",
    "C30_compare",
    "C30_compare_c",
    "C30_total_order",
    "C30_order",
    "C30_equal",
    "C30_equal_c",
    "C30_equal_array"
   ],
   "note": "Every restriction in the statement is needed: without it the claim is false of the code (C184)."
  },
  {
   "property": "C31",
   "status": "proved",
   "theorems": [
    "C31_find_char",
    "C31_npos",
    "C31_found",
    "C31_absent",
    "C31_absent_one"
   ],
   "note": "Every restriction in the statement is needed: without it the claim is false of the code (C185)."
  },
  {
   "property": "C32",
   "status": "proved",
   "theorems": [
    "C32_starts_with_c",
    "C32_starts_with_two_c",
    "C32_ends_with",
    "C32_ends_with_c",
    "C32_starts_with",
    "C32_starts_with_char",
    "C32_ends_with_char"
   ],
   "note": "Every restriction in the statement is needed: without it the claim is false of the code (C186)."
  },
  {
   "property": "C33",
   "status": "proved",
   "theorems": [
    "C33_substr"
   ],
   "note": "Every restriction in the statement is needed: without it the claim is false of the code (C187)."
  },
  {
   "property": "C34",
   "status": "proved",
   "theorems": [
    "C34_copy",
    "C34_copy_n",
    "C34_copy_backward"
   ],
   "note": ""
  },
  {
   "property": "C35",
   "status": "proved",
   "theorems": [
    "C35_find_if",
    "C35_find_first_of",
    "C35_find_last_of",
    "C35_search",
    "C35_mismatch",
    "C35_equal"
   ],
   "note": ""
  },
  {
   "property": "C36",
   "status": "proved",
   "theorems": [
    "C36_min_element",
    "C36_max_element",
    "C36_empty_range",
    "C36_clamp",
    "C36_min_max",
    "C36_reverse",
    "C36_reverse_whole_array"
   ],
   "note": ""
  },
  {
   "property": "C37",
   "status": "proved",
   "theorems": [
    "C37_exclusive",
    "C37_accounting",
    "C37_starts"
   ],
   "note": "Client frees and writes only live blocks; covers alloc/free and typed_pool emplace/erase."
  },
  {
   "property": "C38",
   "status": "proved",
   "theorems": [
    "C38_live_blocks_kept"
   ],
   "note": ""
  },
  {
   "property": "C39",
   "status": "proved",
   "theorems": [
    "C39_intrusive_sequence"
   ],
   "note": ""
  },
  {
   "property": "C40",
   "status": "proved",
   "theorems": [
    "C40_with_back"
   ],
   "note": "Every restriction in the statement is needed: without it the claim is false of the code (C188)."
  },
  {
   "property": "C41",
   "status": "proved",
   "theorems": [
    "C41_remove_if",
    "C41_remove_if_leaves",
    "C41_remove_first"
   ],
   "note": "Every restriction in the statement is needed: without it the claim is false of the code (C189)."
  },
  {
   "property": "C42",
   "status": "proved",
   "theorems": [
    "C42_both_directions"
   ],
   "note": "Every restriction in the statement is needed: without it the claim is false of the code (C190)."
  },
  {
   "property": "C43",
   "status": "proved",
   "theorems": [
    "C43_history",
    "C43_exactly_once"
   ],
   "note": "Every restriction in the statement is needed: without it the claim is false of the code (C191)."
  },
  {
   "property": "C44",
   "status": "proved",
   "theorems": [
    "C44_fnv1_32",
    "C44_fnv1a_32",
    "C44_fnv1_64",
    "C44_fnv1a_64"
   ],
   "note": "Characters of either signedness; the published functions are written out in Hash_Spec.v and the published test vectors evaluate."
  },
  {
   "property": "C45",
   "status": "proved",
   "theorems": [
    "C45_permutes"
   ],
   "note": ""
  },
  {
   "property": "C46",
   "status": "proved",
   "theorems": [
    "C46_byteswap"
   ],
   "note": "Every restriction in the statement is needed: without it the claim is false of the code (C192)."
  },
  {
   "property": "C47",
   "status": "proved",
   "theorems": [
    "C47_span_input",
    "C47_span_input_position",
    "C47_in_avail"
   ],
   "note": "Every restriction in the statement is needed: without it the claim is false of the code (C193)."
  },
  {
   "property": "C48",
   "status": "proved",
   "theorems": [
    "C48_span_output"
   ],
   "note": "Every restriction in the statement is needed: without it the claim is false of the code (C194)."
  },
  {
   "property": "C49",
   "status": "proved",
   "theorems": [
    "C49_buffered_history",
    "C49_buffered_block"
   ],
   "note": "Every restriction in the statement is needed: without it the claim is false of the code (C195, C471). What the wrapped buffer takes of what it is handed: C472."
  },
  {
   "property": "C50",
   "status": "proved",
   "theorems": [
    "C50_getline"
   ],
   "note": "Every restriction in the statement is needed: without it the claim is false of the code (C196)."
  },
  {
   "property": "C51",
   "status": "proved",
   "theorems": [
    "C51_ignore",
    "C51_ignore_delim",
    "C51_ignore_as_called",
    "C51_ws",
    "C51_ws_not_good",
    "C51_read",
    "C51_get",
    "C51_peek",
    "C51_peek_blocking",
    "C51_get_unget"
   ],
   "note": "Full on plain texts."
  },
  {
   "property": "C52",
   "status": "proved",
   "theorems": [
    "C52_insert_integer",
    "C52_padded_length",
    "C52_insert_char",
    "C52_fill_range"
   ],
   "note": "Every restriction in the statement is needed: without it the claim is false of the code (C197)."
  },
  {
   "property": "C53",
   "status": "proved",
   "theorems": [
    "C53_fill_round_trip"
   ],
   "note": "Every restriction in the statement is needed: without it the claim is false of the code (C198)."
  },
  {
   "property": "C54",
   "status": "proved",
   "theorems": [
    "C54_accepts",
    "C54_rejects",
    "C54_compares"
   ],
   "note": "Every restriction in the statement is needed: without it the claim is false of the code (C199)."
  },
  {
   "property": "C55",
   "status": "proved",
   "theorems": [
    "C55_conversion_truncates",
    "C55_finer_exact",
    "C55_common_period_exact",
    "C55_sum_exact",
    "C55_difference_exact",
    "C55_comparison_exact",
    "C55_assign"
   ],
   "note": "Every restriction in the statement is needed: without it the claim is false of the code (C200)."
  },
  {
   "property": "C56",
   "status": "proved",
   "theorems": [
    "C56_ratio_arithmetic_exact",
    "C56_ratio_arithmetic_compiles",
    "C56_type_reduces",
    "C56_gcd"
   ],
   "note": "Every restriction in the statement is needed: without it the claim is false of the code (C201)."
  },
  {
   "property": "C57",
   "status": "proved",
   "theorems": [
    "C57_subranges",
    "C57_subspan_rest"
   ],
   "note": "Every restriction in the statement is needed: without it the claim is false of the code (C202)."
  },
  {
   "property": "C58",
   "status": "proved",
   "theorems": [
    "C58_history",
    "C58_no_leak",
    "C58_step"
   ],
   "note": "Proved for every history of construction, copy, move, destruction, reset, emplace and the assignments over any number of optionals, for every combination of traits of T. Self-assignment and exceptions: C97. Conversion between optionals of different types and emplacement with several arguments are the same code with another constructor run."
  },
  {
   "property": "C59",
   "status": "proved",
   "theorems": [
    "C59_setstate_adds",
    "C59_clear_replaces",
    "C59_queries",
    "C59_setf_unsetf",
    "C59_setters",
    "C59_frame",
    "C59_setf_mask",
    "C59_flags_apart",
    "C59_initial",
    "C59_setbase"
   ],
   "note": "Every restriction in the statement is needed: without it the claim is false of the code (C203)."
  },
  {
   "property": "C60",
   "status": "proved",
   "theorems": [
    "C60_swap_class_types",
    "C60_swap_integers"
   ],
   "note": "Every restriction in the statement is needed: without it the claim is false of the code (C204)."
  },
  {
   "property": "C61",
   "status": "proved",
   "theorems": [
    "C61_fill_n",
    "C61_fill",
    "C61_accumulate"
   ],
   "note": ""
  },
  {
   "property": "C62",
   "status": "proved",
   "theorems": [
    "C62_readsome"
   ],
   "note": "Every restriction in the statement is needed: without it the claim is false of the code (C205)."
  },
  {
   "property": "C63",
   "status": "proved",
   "theorems": [
    "C63_seekg",
    "C63_state"
   ],
   "note": "Every restriction in the statement is needed: without it the claim is false of the code (C206)."
  },
  {
   "property": "C64",
   "status": "proved",
   "theorems": [
    "C64_num_put"
   ],
   "note": "Every restriction in the statement is needed: without it the claim is false of the code (C207)."
  },
  {
   "property": "C65",
   "status": "proved",
   "theorems": [
    "C65_numeric_bool"
   ],
   "note": "Full on good streams."
  },
  {
   "property": "C66",
   "status": "proved",
   "theorems": [
    "C66_extract_char",
    "C66_extract_char_end"
   ],
   "note": "Every restriction in the statement is needed: without it the claim is false of the code (C208)."
  },
  {
   "property": "C67",
   "status": "proved",
   "theorems": [
    "C67_put"
   ],
   "note": "Every restriction in the statement is needed: without it the claim is false of the code (C209)."
  },
  {
   "property": "C68",
   "status": "partial",
   "theorems": [
    "C68_iteration_refuted"
   ],
   "note": "The property is false: begin()..end() reads past the end for every table. Only the refutation is proved."
  },
  {
   "property": "C69",
   "status": "proved",
   "theorems": [
    "C69_accepted"
   ],
   "note": "Every restriction in the statement is needed: without it the claim is false of the code (C210)."
  },
  {
   "property": "C70",
   "status": "proved",
   "theorems": [
    "C70_gc",
    "C70_clear",
    "C70_size"
   ],
   "note": "The full statement, with its restrictions. In tables as in C25."
  },
  {
   "property": "C71",
   "status": "proved",
   "theorems": [
    "C71_set_insert",
    "C71_bucket",
    "C71_count"
   ],
   "note": "The full statement, with its restrictions. Sets whose buckets cannot fill up to the table end, reached by insertions and erasures of bucket ends."
  },
  {
   "property": "C72",
   "status": "proved",
   "theorems": [
    "C72_string_erase"
   ],
   "note": ""
  },
  {
   "property": "C73",
   "status": "partial",
   "theorems": [
    "C73_insert_self_refuted"
   ],
   "note": "False strictly inside the string (refuted, with the exact result); at the ends it is append_self (C29)."
  },
  {
   "property": "C74",
   "status": "partial",
   "theorems": [
    "C74_size_refuted"
   ],
   "note": "Equal modulo the range of size_type only; 256 for the unbounded layer2 string."
  },
  {
   "property": "C75",
   "status": "proved",
   "theorems": [
    "C75_lexicographic"
   ],
   "note": "Every restriction in the statement is needed: without it the claim is false of the code (C211)."
  },
  {
   "property": "C76",
   "status": "proved",
   "theorems": [
    "C76_rfind"
   ],
   "note": "Every restriction in the statement is needed: without it the claim is false of the code (C212)."
  },
  {
   "property": "C77",
   "status": "proved",
   "theorems": [
    "C77_find_first_of",
    "C77_find_last_of"
   ],
   "note": "Every restriction in the statement is needed: without it the claim is false of the code (C213)."
  },
  {
   "property": "C78",
   "status": "proved",
   "theorems": [
    "C78_remove_prefix",
    "C78_remove_suffix"
   ],
   "note": ""
  },
  {
   "property": "C79",
   "status": "proved",
   "theorems": [
    "C79_handle"
   ],
   "note": "Every restriction in the statement is needed: without it the claim is false of the code (C214)."
  },
  {
   "property": "C80",
   "status": "proved",
   "theorems": [
    "C80_reuse_order"
   ],
   "note": ""
  },
  {
   "property": "C81",
   "status": "proved",
   "theorems": [
    "C81_iterator_arithmetic"
   ],
   "note": "Every restriction in the statement is needed: without it the claim is false of the code (C215)."
  },
  {
   "property": "C82",
   "status": "proved",
   "theorems": [
    "C82_forward_list_sequence"
   ],
   "note": ""
  },
  {
   "property": "C83",
   "status": "proved",
   "theorems": [
    "C83_pop_releases"
   ],
   "note": "Every restriction in the statement is needed: without it the claim is false of the code (C216)."
  },
  {
   "property": "C84",
   "status": "partial",
   "theorems": [
    "C84_move_only_owner_refuted",
    "C84_move_only_owner_count_refuted",
    "C84_copy_moved_refuted"
   ],
   "note": "Moving one of several owners is covered by C43_history; moving the only owner, and copying a moved-from owner, are refuted universally (undefined behaviour on destruction)."
  },
  {
   "property": "C85",
   "status": "proved",
   "theorems": [
    "C85_integral",
    "C85_string"
   ],
   "note": "Every restriction in the statement is needed: without it the claim is false of the code (C217)."
  },
  {
   "property": "C86",
   "status": "proved",
   "theorems": [
    "C86_hh_mm_ss",
    "C86_hours_modulo_256"
   ],
   "note": "Every restriction in the statement is needed: without it the claim is false of the code (C218)."
  },
  {
   "property": "C87",
   "status": "proved",
   "theorems": [
    "C87_is_leap",
    "C87_month_day_ok",
    "C87_year_plus",
    "C87_year_ok_units"
   ],
   "note": "Every restriction in the statement is needed: without it the claim is false of the code (C219)."
  },
  {
   "property": "C88",
   "status": "proved",
   "theorems": [
    "C88_promoted_type",
    "C88_promoted_type_exists"
   ],
   "note": "Every restriction in the statement is needed: without it the claim is false of the code (C220)."
  },
  {
   "property": "C89",
   "status": "proved",
   "theorems": [
    "C89_construct",
    "C89_from_null",
    "C89_access",
    "C89_iteration",
    "C89_bytes"
   ],
   "note": "Pointers are positions in one array; leaving it is undefined behaviour in the model. first<count>() (span.h:43-47) does not compile when used and is not modelled."
  },
  {
   "property": "C90",
   "status": "proved",
   "theorems": [
    "C90_history",
    "C90_no_leak",
    "C90_step",
    "C90_construct_by_type"
   ],
   "note": "Every restriction in the statement is needed: without it the claim is false of the code (C221)."
  },
  {
   "property": "C91",
   "status": "proved",
   "theorems": [
    "C91_access",
    "C91_access_by_type"
   ],
   "note": "Proved."
  },
  {
   "property": "C92",
   "status": "proved",
   "theorems": [
    "C92_emplace_throws",
    "C92_construct_throws",
    "C92_assign_throws_valueless",
    "C92_assign_throws_same",
    "C92_self_assign",
    "C92_self_assign_valueless"
   ],
   "note": "Every restriction in the statement is needed: without it the claim is false of the code (C222)."
  },
  {
   "property": "C93",
   "status": "proved",
   "theorems": [
    "C93_converting_constructor",
    "C93_converting_assignment",
    "C93_emplace"
   ],
   "note": "Every restriction in the statement is needed: without it the claim is false of the code (C223)."
  },
  {
   "property": "C94",
   "status": "proved",
   "theorems": [
    "C94_visit_index"
   ],
   "note": "Every restriction in the statement is needed: without it the claim is false of the code (C224)."
  },
  {
   "property": "C95",
   "status": "proved",
   "theorems": [
    "C95_access",
    "C95_deref",
    "C95_hash"
   ],
   "note": "Every restriction in the statement is needed: without it the claim is false of the code (C225)."
  },
  {
   "property": "C96",
   "status": "proved",
   "theorems": [
    "C96_equal",
    "C96_greater",
    "C96_less",
    "C96_equal_optionals"
   ],
   "note": "Every restriction in the statement is needed: without it the claim is false of the code (C226)."
  },
  {
   "property": "C97",
   "status": "proved",
   "theorems": [
    "C97_construct_throws",
    "C97_emplace_throws",
    "C97_assign_throws",
    "C97_self_assign"
   ],
   "note": "Every restriction in the statement is needed: without it the claim is false of the code (C227)."
  },
  {
   "property": "C98",
   "status": "proved",
   "theorems": [
    "C98_null",
    "C98_bits"
   ],
   "note": "Every restriction in the statement is needed: without it the claim is false of the code (C228)."
  },
  {
   "property": "C99",
   "status": "proved",
   "theorems": [
    "C99_history",
    "C99_no_leak",
    "C99_step"
   ],
   "note": "The full statement, with its restrictions. Histories over any number of variables refine the value/error specification; restricted to copy constructible contents for copy and move construction (C102 shows why)."
  },
  {
   "property": "C100",
   "status": "proved",
   "theorems": [
    "C100_access",
    "C100_unchecked"
   ],
   "note": "Checked and unchecked access characterised in every state."
  },
  {
   "property": "C101",
   "status": "proved",
   "theorems": [
    "C101_constructor_throws",
    "C101_assign_throws"
   ],
   "note": "Every restriction in the statement is needed: without it the claim is false of the code (C229)."
  },
  {
   "property": "C102",
   "status": "proved",
   "theorems": [
    "C102_move_copies"
   ],
   "note": "Every restriction in the statement is needed: without it the claim is false of the code (C230)."
  },
  {
   "property": "C103",
   "status": "proved",
   "theorems": [
    "C103_type_at_index",
    "C103_first_index",
    "C103_absent",
    "C103_match_count",
    "C103_single",
    "C103_contains_type"
   ],
   "note": "Full characterisation of lookup by position and by type."
  },
  {
   "property": "C104",
   "status": "proved",
   "theorems": [
    "C104_selected",
    "C104_where",
    "C104_all"
   ],
   "note": "Indices, types, projections and visitor indices equal the filtered list of positioned items."
  },
  {
   "property": "C105",
   "status": "proved",
   "theorems": [
    "C105_get",
    "C105_where",
    "C105_contains"
   ],
   "note": "Every restriction in the statement is needed: without it the claim is false of the code (C231)."
  },
  {
   "property": "C106",
   "status": "proved",
   "theorems": [
    "C106_make_index_sequence",
    "C106_make_reverse",
    "C106_reverser"
   ],
   "note": "Closed forms for every N."
  },
  {
   "property": "C107",
   "status": "proved",
   "theorems": [
    "C107_visit",
    "C107_visit_reverse",
    "C107_forward_invoker",
    "C107_first"
   ],
   "note": "Exact characterisation of result and calls for any stateful functor."
  },
  {
   "property": "C108",
   "status": "proved",
   "theorems": [
    "C108_get",
    "C108_get_type",
    "C108_apply",
    "C108_piecewise_pair",
    "C108_assign"
   ],
   "note": "Element access, apply, make_from_tuple, piecewise pair construction and assignment, dense and sparse."
  },
  {
   "property": "C109",
   "status": "proved",
   "theorems": [
    "C109_visit",
    "C109_empty"
   ],
   "note": "Every restriction in the statement is needed: without it the claim is false of the code (C232)."
  },
  {
   "property": "C110",
   "status": "proved",
   "theorems": [
    "C110_equality",
    "C110_lexicographic",
    "C110_total_order",
    "C110_weak_order",
    "C110_greater",
    "C110_swap",
    "C110_swap_int"
   ],
   "note": "Every restriction in the statement is needed: without it the claim is false of the code (C233)."
  },
  {
   "property": "C111",
   "status": "proved",
   "theorems": [
    "C111_largest",
    "C111_largest_exists",
    "C111_are_trivial",
    "C111_are_same"
   ],
   "note": "largest_type is the first largest."
  },
  {
   "property": "C112",
   "status": "proved",
   "theorems": [
    "C112_history",
    "C112_step",
    "C112_all_deleted"
   ],
   "note": "The full statement, with its restrictions. Proved for every legal history (C112_history, C112_step); legal excludes copying a follower whose master was reset (C114), self-assignment (C115), 2^w or more owners (C116) and destroying a master before its followers, which leaves the followers pointing at a destroyed control block. C112_all_deleted: nothing leaks or is deleted twice."
  },
  {
   "property": "C113",
   "status": "proved",
   "theorems": [
    "C113_held_object_usable",
    "C113_master_count",
    "C113_null_count"
   ],
   "note": "Every restriction in the statement is needed: without it the claim is false of the code (C234)."
  },
  {
   "property": "C114",
   "status": "partial",
   "theorems": [
    "C114_copy_counts_refuted"
   ],
   "note": "False: memory.h:305-312 counts a copy only while the master is active. C114_copy_counts_refuted describes every state with a sole owner whose master was reset: copying it and destroying the original leaves the copy dangling. The case with an active master is part of C112_step."
  },
  {
   "property": "C115",
   "status": "partial",
   "theorems": [
    "C115_self_assignment_refuted"
   ],
   "note": "False for every state: C115_self_assignment_refuted. operator= resets before it reads the right-hand side (memory.h:568-575)."
  },
  {
   "property": "C116",
   "status": "partial",
   "theorems": [
    "C116_many_owners_refuted"
   ],
   "note": "False at exactly 2^w owners beyond the master: C116_many_owners_refuted, for every width. Below 2^w owners the claim is part of C112_history."
  },
  {
   "property": "C117",
   "status": "proved",
   "theorems": [
    "C117_writes_in_order",
    "C117_flush"
   ],
   "note": "The full statement, with its restrictions. Proved for capacities and blocks below 2^31 and characters other than '\\xff' in sputn (see C235_uncounted_refuted); the answers are given in closed form by greedy_answers."
  },
  {
   "property": "C118",
   "status": "proved",
   "theorems": [
    "C118_sync"
   ],
   "note": "Every restriction in the statement is needed: without it the claim is false of the code (C235)."
  },
  {
   "property": "C119",
   "status": "proved",
   "theorems": [
    "C119_reads_in_order"
   ],
   "note": "Every restriction in the statement is needed: without it the claim is false of the code (C236)."
  },
  {
   "property": "C120",
   "status": "partial",
   "theorems": [
    "C120_sgetn_consumes_refuted",
    "C120_sgetn_wrapped_refuted"
   ],
   "note": "False in every state: xsgetn never consumes (C120_sgetn_consumes_refuted), and it reads past the storage when the buffered characters wrap around (C120_sgetn_wrapped_refuted)."
  },
  {
   "property": "C121",
   "status": "proved",
   "theorems": [
    "C121_history",
    "C121_no_leak"
   ],
   "note": "Unique ownership, simulated by a small owner specification over all histories; copies of const functions, copies of empty functions and self-assignment are C122-C125."
  },
  {
   "property": "C122",
   "status": "partial",
   "theorems": [
    "C122_copy_refuted"
   ],
   "note": "Refuted for every history: destroying a const copy and the original, in either order, deletes the object twice."
  },
  {
   "property": "C123",
   "status": "partial",
   "theorems": [
    "C123_copy_keeps_source_refuted"
   ],
   "note": "Refuted for every history: the new function works, the original is empty and calling it is undefined."
  },
  {
   "property": "C124",
   "status": "partial",
   "theorems": [
    "C124_self_assignment_refuted"
   ],
   "note": "Refuted for every history: f = f empties f."
  },
  {
   "property": "C125",
   "status": "proved",
   "theorems": [
    "C125_test"
   ],
   "note": "Every restriction in the statement is needed: without it the claim is false of the code (C237)."
  },
  {
   "property": "C126",
   "status": "proved",
   "theorems": [
    "C126_inline"
   ],
   "note": "Every restriction in the statement is needed: without it the claim is false of the code (C238)."
  },
  {
   "property": "C127",
   "status": "proved",
   "theorems": [
    "C127_stringbuf_history"
   ],
   "note": "Hypotheses: the whole text fits (one cell is the terminator's), a null terminated text holds no 0, no character equal to the traits' end-of-file value, at most 65535 characters (32767 for in_avail under estd's own traits), and counts of sgetn within size_type."
  },
  {
   "property": "C128",
   "status": "partial",
   "theorems": [
    "C128_full_write_refuted",
    "C128_full_sputc_refuted",
    "C128_nul_write_refuted"
   ],
   "note": "False of the code: too long a write stops on the assertion in a debug build and is undefined in a release build; filling the terminator's cell is undefined in both; a 0 is answered as written but is not in the text."
  },
  {
   "property": "C129",
   "status": "proved",
   "theorems": [
    "C129_clear_before_reading"
   ],
   "note": "Every restriction in the statement is needed: without it the claim is false of the code (C239)."
  },
  {
   "property": "C130",
   "status": "partial",
   "theorems": [
    "C130_sgetn_count_refuted"
   ],
   "note": "The count is converted to size_type first: sgetn(s, 256) on a string with 8-bit sizes stores nothing. For counts below that see C127."
  },
  {
   "property": "C131",
   "status": "proved",
   "theorems": [
    "C131_seek"
   ],
   "note": "With ios_base::in; without it the answer is -1 and nothing moves (visible in the model, string.h:129-149)."
  },
  {
   "property": "C132",
   "status": "partial",
   "theorems": [
    "C132_seek_cur_refuted",
    "C132_seek_beyond_refuted"
   ],
   "note": "False of the code: from the current position the seek happens but -1 is answered; positions beyond the text are accepted, and reading there gives what the storage holds or is undefined."
  },
  {
   "property": "C133",
   "status": "proved",
   "theorems": [
    "C133_cctype"
   ],
   "note": ""
  },
  {
   "property": "C134",
   "status": "proved",
   "theorems": [
    "C134_isspace_only_spaces"
   ],
   "note": "Every restriction in the statement is needed: without it the claim is false of the code (C240)."
  },
  {
   "property": "C135",
   "status": "proved",
   "theorems": [
    "C135_isspace_locale"
   ],
   "note": ""
  },
  {
   "property": "C136",
   "status": "proved",
   "theorems": [
    "C136_is",
    "C136_apart"
   ],
   "note": ""
  },
  {
   "property": "C137",
   "status": "partial",
   "theorems": [
    "C137_is_lower_refuted",
    "C137_is_upper_lower_refuted",
    "C137_is_alpha_punct_refuted"
   ],
   "note": "False of the code: lower is tested as 'a' <= ch <= 'a' and not at all beside upper; alpha and punct are never tested. The other categories are C136."
  },
  {
   "property": "C138",
   "status": "proved",
   "theorems": [
    "C138_from_char",
    "C138_to_char",
    "C138_round_trip"
   ],
   "note": ""
  },
  {
   "property": "C139",
   "status": "proved",
   "theorems": [
    "C139_history",
    "C139_history_modulo",
    "C139_plus_then_minus",
    "C139_min",
    "C139_epoch"
   ],
   "note": ""
  },
  {
   "property": "C140",
   "status": "proved",
   "theorems": [
    "C140_elapsed",
    "C140_elapsed_modulo",
    "C140_no_64_bits"
   ],
   "note": ""
  },
  {
   "property": "C141",
   "status": "proved",
   "theorems": [
    "C141_order",
    "C141_difference"
   ],
   "note": "Every restriction in the statement is needed: without it the claim is false of the code (C241)."
  },
  {
   "property": "C142",
   "status": "proved",
   "theorems": [
    "C142_foreign_duration",
    "C142_conversion"
   ],
   "note": "Every restriction in the statement is needed: without it the claim is false of the code (C242)."
  },
  {
   "property": "C143",
   "status": "proved",
   "theorems": [
    "C143_scale",
    "C143_scale_assign"
   ],
   "note": "Every restriction in the statement is needed: without it the claim is false of the code (C243)."
  },
  {
   "property": "C144",
   "status": "proved",
   "theorems": [
    "C144_conversion",
    "C144_same_period",
    "C144_arithmetic",
    "C144_comparison",
    "C144_one_type"
   ],
   "note": ""
  },
  {
   "property": "C145",
   "status": "proved",
   "theorems": [
    "C145_add_assign",
    "C145_compiles"
   ],
   "note": ""
  },
  {
   "property": "C146",
   "status": "proved",
   "theorems": [
    "C146_count",
    "C146_conversion"
   ],
   "note": ""
  },
  {
   "property": "C147",
   "status": "proved",
   "theorems": [
    "C147_value",
    "C147_between",
    "C147_from_zero"
   ],
   "note": ""
  },
  {
   "property": "C148",
   "status": "proved",
   "theorems": [
    "C148_numbers",
    "C148_increment_negate",
    "C148_compare"
   ],
   "note": ""
  },
  {
   "property": "C149",
   "status": "proved",
   "theorems": [
    "C149_bytes",
    "C149_literal"
   ],
   "note": ""
  },
  {
   "property": "C150",
   "status": "proved",
   "theorems": [
    "C150_put_unit"
   ],
   "note": ""
  },
  {
   "property": "C151",
   "status": "partial",
   "theorems": [
    "C151_narrowed_ticks_refuted",
    "C151_mixed_refuted",
    "C151_same_period_refuted",
    "C151_percent_overflow_refuted",
    "C151_negative_refuted",
    "C151_literal_refuted"
   ],
   "note": "refuted: ticks narrowed before comparison, mixed signs that do not compile, an offset unit constructed from a unit of its own period is off by the offset, percentages of wide ranges, unsigned counts against negative numbers, literals from 4 GiB on"
  },
  {
   "property": "C152",
   "status": "partial",
   "theorems": [
    "C152_giga_refuted",
    "C152_kilobytes_refuted"
   ],
   "note": "refuted: giga and pico do not compile; kilobytes of 1000 and of 1024 bytes print the same"
  },
  {
   "property": "C153",
   "status": "proved",
   "theorems": [
    "C153_mutual_exclusion"
   ],
   "note": ""
  },
  {
   "property": "C154",
   "status": "proved",
   "theorems": [
    "C154_held_exactly_in_scope",
    "C154_ended_thread_released_all",
    "C154_all_free_at_the_end"
   ],
   "note": ""
  },
  {
   "property": "C155",
   "status": "proved",
   "theorems": [
    "C155_no_lost_update"
   ],
   "note": ""
  },
  {
   "property": "C156",
   "status": "proved",
   "theorems": [
    "C156_never_stuck",
    "C156_fair_schedules_finish"
   ],
   "note": ""
  },
  {
   "property": "C157",
   "status": "partial",
   "theorems": [
    "C157_unique_lock_never_unlocks_refuted"
   ],
   "note": "False: unique_lock has no destructor; a thread that locked through it holds the mutex for ever."
  },
  {
   "property": "C158",
   "status": "partial",
   "theorems": [
    "C158_try_to_lock_goes_on_unlocked_refuted",
    "C158_unlock_after_failed_try_refuted"
   ],
   "note": "False: the result of try_lock is dropped; the scope runs without the mutex and its unlock() is undefined."
  },
  {
   "property": "C159",
   "status": "partial",
   "theorems": [
    "C159_binary_mutex_cannot_be_locked_refuted"
   ],
   "note": "False for binary = true: the binary semaphore is created empty, so nothing can lock it before someone unlocks it."
  },
  {
   "property": "C160",
   "status": "proved",
   "theorems": [
    "C160_no_over_acquisition",
    "C160_count_exact",
    "C160_waits_when_none"
   ],
   "note": ""
  },
  {
   "property": "C161",
   "status": "partial",
   "theorems": [
    "C161_release_when_full_lost_refuted"
   ],
   "note": "False: release() of a full semaphore has no effect and reports nothing."
  },
  {
   "property": "C162",
   "status": "proved",
   "theorems": [
    "C162_timeout_in_whole_ticks"
   ],
   "note": ""
  },
  {
   "property": "C163",
   "status": "partial",
   "theorems": [
    "C163_waits_less_than_asked_refuted",
    "C163_below_a_tick_does_not_wait_refuted"
   ],
   "note": "False: the timeout is truncated to whole ticks; a timeout below one tick does not wait."
  },
  {
   "property": "C164",
   "status": "partial",
   "theorems": [
    "C164_pop_heap_single_int_refuted"
   ],
   "note": "False of the code, refuted for the cases the theorems name. Companion of C02, which holds the true part. On the unrestricted claim: Class types: full. Built-in integers (swap is xor_swap): full for two or more elements; a one-element range is overwritten with 0 (refuted)."
  },
  {
   "property": "C165",
   "status": "partial",
   "theorems": [
    "C165_make_heap_empty_refuted"
   ],
   "note": "False of the code, refuted for the cases the theorems name. Companion of C03, which holds the true part. On the unrestricted claim: All non-empty ranges, all k>=1. Missing: the empty range, where the code is undefined (C165_make_heap_empty_refuted)."
  },
  {
   "property": "C166",
   "status": "partial",
   "theorems": [
    "C166_erase_only_element_refuted"
   ],
   "note": "False of the code, refuted for the cases the theorems name. Companion of C05, which holds the true part. On the unrestricted claim: All queues except those of exactly one element, where erasing it is undefined behaviour (refuted)."
  },
  {
   "property": "C167",
   "status": "partial",
   "theorems": [
    "C167_emplace_returns_other_element_refuted"
   ],
   "note": "False of the code, refuted for the cases the theorems name. Companion of C06, which holds the true part. On the unrestricted claim: False in general (refuted); proved when the new element does not rise."
  },
  {
   "property": "C168",
   "status": "partial",
   "theorems": [
    "C168_overread_always_corrupts_refuted",
    "C168_poll_delivers_unoffered_bytes_refuted"
   ],
   "note": "False of the code, refuted for the cases the theorems name. Companion of C09, which holds the true part. On the unrestricted claim: Refuted: poll/peek compare the request with the total storage instead of the readable region. Proved: exact refusal condition, state unchanged on refusal."
  },
  {
   "property": "C169",
   "status": "partial",
   "theorems": [
    "C169_empty_text_refuted",
    "C169_overflow_pointer_refuted"
   ],
   "note": "False of the code, refuted for the cases the theorems name. Companion of C12, which holds the true part. On the unrestricted claim: Nonempty text, all bases and widths: full, except that after an overflow in a base other than 10 and 36 ptr may pass non-digits. Refuted: empty text accepted, overflow pointer."
  },
  {
   "property": "C170",
   "status": "partial",
   "theorems": [
    "C170_sign_lost_before_trailing_text_refuted",
    "C170_minimum_rejected_refuted",
    "C170_lone_minus_and_empty_refuted"
   ],
   "note": "False of the code, refuted for the cases the theorems name. Companion of C13, which holds the true part. On the unrestricted claim: Proved: unsigned part, '-' + digits ending the text, overflow. Refuted: sign lost before trailing text, minimum rejected, lone '-' accepted, empty text UB."
  },
  {
   "property": "C171",
   "status": "partial",
   "theorems": [
    "C171_exact_fit_refuted",
    "C171_empty_buffer_refuted",
    "C171_minimum_refuted"
   ],
   "note": "False of the code, refuted for the cases the theorems name. Companion of C14, which holds the true part. On the unrestricted claim: Proved for every value but the most negative, buffers of at least one character, with the exact room needed. Refuted: exact fit of a nonnegative number, empty buffer, minimum."
  },
  {
   "property": "C172",
   "status": "partial",
   "theorems": [
    "C172_minimum_int8_refuted"
   ],
   "note": "False of the code, refuted for the cases the theorems name. Companion of C15, which holds the true part. On the unrestricted claim: Proved for every value of every width but the most negative one, which is UB (32/64 bits) or garbage (8/16 bits): refuted."
  },
  {
   "property": "C173",
   "status": "partial",
   "theorems": [
    "C173_overflow_early_refuted",
    "C173_overflow_late_refuted",
    "C173_minus_refuted",
    "C173_empty_refuted"
   ],
   "note": "False of the code, refuted for the cases the theorems name. Companion of C17, which holds the true part. On the unrestricted claim: Proved: numbers that fit, no digits. Refuted: overflow leaves digits unread or consumes what follows; lone minus reads 0 without failbit; empty range sets eofbit only."
  },
  {
   "property": "C174",
   "status": "partial",
   "theorems": [
    "C174_reuse_refuted"
   ],
   "note": "False of the code, refuted for the cases the theorems name. Companion of C19, which holds the true part. On the unrestricted claim: Trivial elements, or move/emplace pushes only. Refuted: reusing a slot with push_back(const&) for elements with destructors."
  },
  {
   "property": "C175",
   "status": "partial",
   "theorems": [
    "C175_full_refuted"
   ],
   "note": "False of the code, refuted for the cases the theorems name. Companion of C20, which holds the true part. On the unrestricted claim: All reachable deques that are not full, both directions; refuted for full ones."
  },
  {
   "property": "C176",
   "status": "partial",
   "theorems": [
    "C176_emplace_front_refuted"
   ],
   "note": "False of the code, refuted for the cases the theorems name. Companion of C22, which holds the true part. On the unrestricted claim: push_front: full. emplace_front: refuted."
  },
  {
   "property": "C177",
   "status": "partial",
   "theorems": [
    "C177_table_end_refuted",
    "C177_uninitialised_refuted"
   ],
   "note": "False of the code, refuted for the cases the theorems name. Companion of C23, which holds the true part. On the unrestricted claim: Every table size and hash, every history of the three insertions; hypotheses: mark bit of the last slot clear, buckets not filled to the table end; both needed (refutations)."
  },
  {
   "property": "C178",
   "status": "partial",
   "theorems": [
    "C178_duplicate_refuted"
   ],
   "note": "False of the code, refuted for the cases the theorems name. Companion of C24, which holds the true part. On the unrestricted claim: Insert-only histories and histories as in C25; refuted for erase followed by re-insertion of a key of the same bucket."
  },
  {
   "property": "C179",
   "status": "partial",
   "theorems": [
    "C179_high_bucket_refuted",
    "C179_overflow_refuted",
    "C179_bucket0_refuted"
   ],
   "note": "False of the code, refuted for the cases the theorems name. Companion of C25, which holds the true part. On the unrestricted claim: Histories of insert/assign/erase/gc/clear on tables of 4m slots, m<=16, within bucket depth; refuted for buckets >= 64, overflowing buckets and bucket 0."
  },
  {
   "property": "C180",
   "status": "partial",
   "theorems": [
    "C180_middle_refuted",
    "C180_null_bucket_refuted"
   ],
   "note": "False of the code, refuted for the cases the theorems name. Companion of C26, which holds the true part. On the unrestricted claim: Erasing the first or last key of a bucket; refuted for any other key and for the null key's bucket."
  },
  {
   "property": "C181",
   "status": "partial",
   "theorems": [
    "C181_erase_bytes_refuted",
    "C181_erase_refuted",
    "C181_resize_grow_refuted",
    "C181_string_resize_grow_refuted"
   ],
   "note": "False of the code, refuted for the cases the theorems name. Companion of C27, which holds the true part. On the unrestricted claim: All histories within capacity (N for vectors and sized strings, N-1 for null-terminated strings); vector erase only of one-byte elements or of the last element; resize only downwards. Refuted: erase of wider elements moves bytes instead of elements; growing resize exposes old storage or does nothing. insert(pos,const T&) and assign(first,last) do not compile and are not modelled; elements of class type: C398-C406."
  },
  {
   "property": "C182",
   "status": "partial",
   "theorems": [
    "C182_ndebug_refuted",
    "C182_string_ndebug_refuted",
    "C182_full_string_refuted",
    "C182_vector_wrap_refuted",
    "C182_string_wrap_refuted"
   ],
   "note": "False of the code, refuted for the cases the theorems name. Companion of C28, which holds the true part. On the unrestricted claim: Within capacity: C27 (an access outside is UB in the model). Beyond it: assert when asserts are on. Refuted: NDEBUG writes outside; a null-terminated string filled to capacity() writes the terminator outside; a length sum that wraps in size_type passes the check."
  },
  {
   "property": "C183",
   "status": "partial",
   "theorems": [
    "C183_long_append_refuted",
    "C183_copy_npos_refuted",
    "C183_copy_past_refuted"
   ],
   "note": "False of the code, refuted for the cases the theorems name. Companion of C29, which holds the true part. On the unrestricted claim: append in all forms, assignment; copy for pos<=size when pos+count does not wrap. Refuted: copy(dest,npos,pos>=1) with a wide size_type, pos>size, C strings longer than size_type's range."
  },
  {
   "property": "C184",
   "status": "partial",
   "theorems": [
    "C184_long_refuted",
    "C184_long_c_refuted"
   ],
   "note": "False of the code, refuted for the cases the theorems name. Companion of C30, which holds the true part. On the unrestricted claim: equality and the total order are proved for strings whose length fits the other string's size_type; a longer string is compared by its length modulo that range (refuted in general)"
  },
  {
   "property": "C185",
   "status": "partial",
   "theorems": [
    "C185_from_pos_refuted",
    "C185_stale_refuted",
    "C185_overread_refuted",
    "C185_empty_needle_refuted"
   ],
   "note": "False of the code, refuted for the cases the theorems name. Companion of C31, which holds the true part. On the unrestricted claim: a character: exact. A needle: exact for pos = 0 when it occurs, and npos when it does not and the string is null terminated with enough readable memory behind. For pos > 0 the result is the distance from pos (refuted); needles reaching into stale storage are found and views are over-read (refuted)"
  },
  {
   "property": "C186",
   "status": "partial",
   "theorems": [
    "C186_starts_with_self_refuted",
    "C186_empty_char_refuted",
    "C186_empty_last_refuted"
   ],
   "note": "False of the code, refuted for the cases the theorems name. Companion of C32, which holds the true part. On the unrestricted claim: ends_with and the C string forms are exact; starts_with of two strings is false for equal strings (refuted); the one-character forms read an empty string's storage (refuted)"
  },
  {
   "property": "C187",
   "status": "partial",
   "theorems": [
    "C187_clamp_refuted"
   ],
   "note": "False of the code, refuted for the cases the theorems name. Companion of C33, which holds the true part. On the unrestricted claim: exact when count is npos or within the view; otherwise the count is not clamped (refuted)"
  },
  {
   "property": "C188",
   "status": "partial",
   "theorems": [
    "C188_emptied_refuted",
    "C188_emptied_own_refuted",
    "C188_relinked_refuted"
   ],
   "note": "False of the code, refuted for the cases the theorems name. Companion of C40, which holds the true part. On the unrestricted claim: Not for a list emptied by pop_front and then used again, nor for a user's node pushed a second time; both refuted for every such history."
  },
  {
   "property": "C189",
   "status": "partial",
   "theorems": [
    "C189_twins_refuted"
   ],
   "note": "False of the code, refuted for the cases the theorems name. Companion of C41, which holds the true part. On the unrestricted claim: Exact for lists without two adjacent matches; refuted whenever two matches are adjacent; exact description of what is left, and first_only, for every list."
  },
  {
   "property": "C190",
   "status": "partial",
   "theorems": [
    "C190_insert_end_refuted"
   ],
   "note": "False of the code, refuted for the cases the theorems name. Companion of C42, which holds the true part. On the unrestricted claim: insert at end() of a non-empty list is refuted (null dereference)."
  },
  {
   "property": "C191",
   "status": "partial",
   "theorems": [
    "C191_null_value_refuted"
   ],
   "note": "False of the code, refuted for the cases the theorems name. Companion of C43, which holds the true part. On the unrestricted claim: Histories of make/copy/move/destroy with values Traits::null does not hold for, moving only one of several owners; refuted for null values. make_weak does not compile and is not modelled."
  },
  {
   "property": "C192",
   "status": "partial",
   "theorems": [
    "C192_byte_refuted",
    "C192_int64_refuted"
   ],
   "note": "False of the code, refuted for the cases the theorems name. Companion of C46, which holds the true part. On the unrestricted claim: 16/32 bits and unsigned 64; refuted for 8 bit types (result is 0 or -1) and int64_t (does not compile). Where the toolchain has std::byteswap the library re-exports that."
  },
  {
   "property": "C193",
   "status": "partial",
   "theorems": [
    "C193_span_input_long_refuted",
    "C193_span_input_ff_refuted"
   ],
   "note": "False of the code, refuted for the cases the theorems name. Companion of C47, which holds the true part. On the unrestricted claim: Texts shorter than 65536 characters, without (char)-1 when the library's own traits are used; both exceptions refuted universally."
  },
  {
   "property": "C194",
   "status": "partial",
   "theorems": [
    "C194_span_output_refuted"
   ],
   "note": "False of the code, refuted for the cases the theorems name. Companion of C48, which holds the true part. On the unrestricted claim: Histories in which every block fits. Refuted: a block that does not fit is written past the span."
  },
  {
   "property": "C195",
   "status": "partial",
   "theorems": [
    "C195_buffered_block_refuted"
   ],
   "note": "False of the code, refuted for the cases the theorems name. Companion of C49, which holds the true part. On the unrestricted claim: Single characters in full; blocks that fit. Refuted: longer blocks lose characters."
  },
  {
   "property": "C196",
   "status": "partial",
   "theorems": [
    "C196_getline_overrun_refuted",
    "C196_getline_failbit_refuted"
   ],
   "note": "False of the code, refuted for the cases the theorems name. Companion of C50, which holds the true part. On the unrestricted claim: Lines shorter than count: contents, terminator, consumption. Refuted: failbit on every complete line; overrun by one with lines of count or more."
  },
  {
   "property": "C197",
   "status": "partial",
   "theorems": [
    "C197_octal_refuted",
    "C197_char_left_refuted",
    "C197_string_refuted",
    "C197_setw_refuted"
   ],
   "note": "False of the code, refuted for the cases the theorems name. Companion of C52, which holds the true part. On the unrestricted claim: Integers, characters. Refuted: octal of the upper half, left-adjusted characters, strings unpadded, setw modulo 16."
  },
  {
   "property": "C198",
   "status": "partial",
   "theorems": [
    "C198_fill_round_trip_refuted"
   ],
   "note": "False of the code, refuted for the cases the theorems name. Companion of C53, which holds the true part. On the unrestricted claim: Proved for the characters the 6-bit field holds; refuted for the others."
  },
  {
   "property": "C199",
   "status": "partial",
   "theorems": [
    "C199_first_char_refuted",
    "C199_overrun_refuted"
   ],
   "note": "False of the code, refuted for the cases the theorems name. Companion of C54, which holds the true part. On the unrestricted claim: Proved for texts starting with t or f, with exact consumption. Refuted: another first character is skipped; names are read past their end."
  },
  {
   "property": "C200",
   "status": "partial",
   "theorems": [
    "C200_conversion_overflow_refuted",
    "C200_comparison_of_narrowed_ticks_refuted",
    "C200_unsigned_above_half_refuted",
    "C200_uint64_does_not_compile_refuted"
   ],
   "note": "False of the code, refuted for the cases the theorems name. Companion of C55, which holds the true part. On the unrestricted claim: Conversion equals the exact quotient truncated toward zero and sum, difference and the six comparisons equal the rational ones while the intermediate values are representable; refuted beyond: 64 bit overflow is undefined, ticks are silently narrowed, unsigned counts above half compare below zero against narrower signed ones, uint64_t durations do not compile. Integer representations only."
  },
  {
   "property": "C201",
   "status": "partial",
   "theorems": [
    "C201_num_den_not_reduced_refuted",
    "C201_sign_moves_to_denominator_refuted"
   ],
   "note": "False of the code, refuted for the cases the theorems name. Companion of C56, which holds the true part. On the unrestricted claim: Divide, multiply and add are exact, reduced and compile when the products fit; ratio_subtract and comparisons do not exist. Refuted: num and den are not reduced, and the sign may move to the denominator."
  },
  {
   "property": "C202",
   "status": "partial",
   "theorems": [
    "C202_first_unchecked_refuted",
    "C202_subspan_rest_refuted"
   ],
   "note": "False of the code, refuted for the cases the theorems name. Companion of C57, which holds the true part. On the unrestricted claim: first(c) and subspan(i,c) inside the span are exact for every span; subspan(offset) without a count is refuted for every offset > 0 (it keeps size() instead of size()-offset), first(c) beyond size() is unchecked."
  },
  {
   "property": "C203",
   "status": "partial",
   "theorems": [
    "C203_setf_mask_refuted"
   ],
   "note": "False of the code, refuted for the cases the theorems name. Companion of C59, which holds the true part. On the unrestricted claim: Full except setf(flags, mask) with flags outside the mask, which are set too (refuted)."
  },
  {
   "property": "C204",
   "status": "partial",
   "theorems": [
    "C204_self_swap_integer_refuted"
   ],
   "note": "False of the code, refuted for the cases the theorems name. Companion of C60, which holds the true part. On the unrestricted claim: Distinct objects: full. Swapping a built-in integer with itself zeroes it (refuted)."
  },
  {
   "property": "C205",
   "status": "partial",
   "theorems": [
    "C205_readsome_refuted"
   ],
   "note": "False of the code, refuted for the cases the theorems name. Companion of C62, which holds the true part. On the unrestricted claim: Proved while characters are left; refuted at the end of the text."
  },
  {
   "property": "C206",
   "status": "partial",
   "theorems": [
    "C206_seekg_end_refuted",
    "C206_seekg_eof_refuted"
   ],
   "note": "False of the code, refuted for the cases the theorems name. Companion of C63, which holds the true part. On the unrestricted claim: From the beginning and the current position. Refuted: from the end does nothing; eofbit is not cleared."
  },
  {
   "property": "C207",
   "status": "partial",
   "theorems": [
    "C207_num_put_refuted"
   ],
   "note": "False of the code, refuted for the cases the theorems name. Companion of C64, which holds the true part. On the unrestricted claim: With an adjustment flag; refuted without one."
  },
  {
   "property": "C208",
   "status": "partial",
   "theorems": [
    "C208_nul_refuted"
   ],
   "note": "False of the code, refuted for the cases the theorems name. Companion of C66, which holds the true part. On the unrestricted claim: All characters but NUL with std::char_traits (refuted)."
  },
  {
   "property": "C209",
   "status": "partial",
   "theorems": [
    "C209_put_eof_refuted"
   ],
   "note": "False of the code, refuted for the cases the theorems name. Companion of C67, which holds the true part. On the unrestricted claim: Every character but -1 under estd traits, which is refuted."
  },
  {
   "property": "C210",
   "status": "partial",
   "theorems": [
    "C210_overflow_refuted"
   ],
   "note": "False of the code, refuted for the cases the theorems name. Companion of C69, which holds the true part. On the unrestricted claim: In tables as in C25; refuted when another bucket overflows into the bucket."
  },
  {
   "property": "C211",
   "status": "partial",
   "theorems": [
    "C211_length_first_refuted"
   ],
   "note": "False of the code, refuted for the cases the theorems name. Companion of C75, which holds the true part. On the unrestricted claim: holds for equal lengths only; otherwise the shorter string comes first (refuted)"
  },
  {
   "property": "C212",
   "status": "partial",
   "theorems": [
    "C212_empty_needle_refuted",
    "C212_empty_string_refuted"
   ],
   "note": "False of the code, refuted for the cases the theorems name. Companion of C76, which holds the true part. On the unrestricted claim: exact for a non-empty string and needle; refuted for an empty needle and an empty string"
  },
  {
   "property": "C213",
   "status": "partial",
   "theorems": [
    "C213_behind_end_refuted",
    "C213_empty_string_refuted"
   ],
   "note": "False of the code, refuted for the cases the theorems name. Companion of C77, which holds the true part. On the unrestricted claim: find_first_of exact for pos <= size(); find_last_of exact for pos < size() or npos on a non-empty string, refuted elsewhere"
  },
  {
   "property": "C214",
   "status": "partial",
   "theorems": [
    "C214_handle_refuted"
   ],
   "note": "False of the code, refuted for the cases the theorems name. Companion of C79, which holds the true part. On the unrestricted claim: Exact for the first 128 blocks; refuted for every further block (int8_t handle)."
  },
  {
   "property": "C215",
   "status": "partial",
   "theorems": [
    "C215_minus_refuted"
   ],
   "note": "False of the code, refuted for the cases the theorems name. Companion of C81, which holds the true part. On the unrestricted claim: operator-(int) calls itself and never returns."
  },
  {
   "property": "C216",
   "status": "partial",
   "theorems": [
    "C216_erase_leaks_refuted"
   ],
   "note": "False of the code, refuted for the cases the theorems name. Companion of C83, which holds the true part. On the unrestricted claim: pop_front releases its node; erase_after and remove_if do not."
  },
  {
   "property": "C217",
   "status": "partial",
   "theorems": [
    "C217_wide_refuted"
   ],
   "note": "False of the code, refuted for the cases the theorems name. Companion of C85, which holds the true part. On the unrestricted claim: Integers of types no wider than size_t; wider ones collide (refuted)."
  },
  {
   "property": "C218",
   "status": "partial",
   "theorems": [
    "C218_seconds_from_256_minutes_refuted"
   ],
   "note": "False of the code, refuted for the cases the theorems name. Companion of C86, which holds the true part. On the unrestricted claim: Holds below 256 minutes; refuted from there on (seconds() never below 60), hours modulo 256."
  },
  {
   "property": "C219",
   "status": "partial",
   "theorems": [
    "C219_is_leap_refuted",
    "C219_month_ok_refuted",
    "C219_year_refuted",
    "C219_year_month_day_refuted",
    "C219_before_epoch_refuted",
    "C219_month_13_refuted"
   ],
   "note": "False of the code, refuted for the cases the theorems name. Companion of C87, which holds the true part. On the unrestricted claim: is_leap refuted for every leap year not divisible by 400; ok() for arguments of 8 bits, refuted outside; year_month_day refuted (average months and years): a day that is none, days before the epoch, and for one day in every four years or so a month 13. How near it comes: C447."
  },
  {
   "property": "C220",
   "status": "partial",
   "theorems": [
    "C220_mixed_refuted"
   ],
   "note": "False of the code, refuted for the cases the theorems name. Companion of C88, which holds the true part. On the unrestricted claim: Holds and is minimal outside the mixed case; refuted where the larger type is unsigned and the smaller signed."
  },
  {
   "property": "C221",
   "status": "partial",
   "theorems": [
    "C221_copy_uncopyable_refuted"
   ],
   "note": "False of the code, refuted for the cases the theorems name. Companion of C90, which holds the true part. On the unrestricted claim: Proved for every history of construction, copy, move, destruction, emplace and the three assignments over any number of variants, for alternatives of distinct types (repeated types: C93) and any traits; copies only of copy-constructible alternatives. Refuted for copies of alternatives that cannot be copied: the copy reports the alternative without holding it. Not modelled: arrays of variants, references as alternatives."
  },
  {
   "property": "C222",
   "status": "partial",
   "theorems": [
    "C222_assign_throws_other_refuted",
    "C222_assign_throws_replace_refuted",
    "C222_self_assign_refuted"
   ],
   "note": "False of the code, refuted for the cases the theorems name. Companion of C92, which holds the true part. On the unrestricted claim: Proved for construction, emplace, assignment into a valueless variant and assignment to the held, assignable alternative. Refuted: an exception while assigning another alternative (or replacing a non-assignable one) leaves the old index on destroyed storage; x = x of a non-assignable alternative reads a destroyed object."
  },
  {
   "property": "C223",
   "status": "partial",
   "theorems": [
    "C223_best_match_refuted",
    "C223_explicit_refuted",
    "C223_emplace_duplicate_refuted"
   ],
   "note": "False of the code, refuted for the cases the theorems name. Companion of C93, which holds the true part. On the unrestricted claim: Proved: first constructible alternative. Refuted: an exact match later in the list loses to an earlier constructible alternative; assigning from an explicitly-constructible type aborts; emplace<I> of a repeated type records the first index."
  },
  {
   "property": "C224",
   "status": "partial",
   "theorems": [
    "C224_visit_refuted",
    "C224_visit_first_refuted"
   ],
   "note": "False of the code, refuted for the cases the theorems name. Companion of C94, which holds the true part. On the unrestricted claim: Proved for visit_index; refuted for visit, which starts at alternative 0 whatever is held."
  },
  {
   "property": "C225",
   "status": "partial",
   "theorems": [
    "C225_hash_empty_refuted"
   ],
   "note": "False of the code, refuted for the cases the theorems name. Companion of C95, which holds the true part. On the unrestricted claim: Proved for value, has_value, value_or, operator* of a full optional; hash of an empty optional reads a missing value (refuted)."
  },
  {
   "property": "C226",
   "status": "partial",
   "theorems": [
    "C226_less_empty_refuted"
   ],
   "note": "False of the code, refuted for the cases the theorems name. Companion of C96, which holds the true part. On the unrestricted claim: Proved for ==, !=, >, >= and optional == optional; < and <= answer false for an empty optional (refuted). optional != optional does not compile before C++20."
  },
  {
   "property": "C227",
   "status": "partial",
   "theorems": [
    "C227_emplace_throws_refuted",
    "C227_assign_throws_refuted",
    "C227_self_assign_refuted"
   ],
   "note": "False of the code, refuted for the cases the theorems name. Companion of C97, which holds the true part. On the unrestricted claim: Proved for construction, emplace and assignment into an empty optional, and assignment through T's operator=. Refuted: emplace over a value whose constructor throws leaves has_value() true over a destroyed value; so does replacement of a T that cannot be assigned; x = x of such a T reads a destroyed object."
  },
  {
   "property": "C228",
   "status": "partial",
   "theorems": [
    "C228_null_lost_refuted",
    "C228_bits_truncate_refuted"
   ],
   "note": "False of the code, refuted for the cases the theorems name. Companion of C98, which holds the true part. On the unrestricted claim: Proved for values other than the null value and values that fit the bit-field; refuted for the null value (stored = empty) and for larger values (truncated). The bit-field theorem is for unsigned T and bool."
  },
  {
   "property": "C229",
   "status": "partial",
   "theorems": [
    "C229_switch_throws_refuted",
    "C229_emplace_throws_refuted",
    "C229_unassignable_throws_refuted"
   ],
   "note": "False of the code, refuted for the cases the theorems name. Companion of C101, which holds the true part. On the unrestricted claim: Strong guarantee for constructors and for assignments to a held assignable value; refuted universally for value/error switches, emplace and unassignable types: the variable is left claiming to hold a destroyed object."
  },
  {
   "property": "C230",
   "status": "partial",
   "theorems": [
    "C230_move_only_refuted"
   ],
   "note": "False of the code, refuted for the cases the theorems name. Companion of C102, which holds the true part. On the unrestricted claim: The move constructor copies (source unchanged); for move-only types refuted: the new variable holds nothing and its destruction is undefined behaviour."
  },
  {
   "property": "C231",
   "status": "partial",
   "theorems": [
    "C231_contains_duplicate_refuted"
   ],
   "note": "False of the code, refuted for the cases the theorems name. Companion of C105, which holds the true part. On the unrestricted claim: contains is right for sequences without repetitions; refuted universally: it holds exactly when the value occurs once, so a repeated value is reported absent."
  },
  {
   "property": "C232",
   "status": "partial",
   "theorems": [
    "C232_first_accepted_refuted",
    "C232_none_accepted_refuted"
   ],
   "note": "False of the code, refuted for the cases the theorems name. Companion of C109, which holds the true part. On the unrestricted claim: The calls are right; the int result is returned as bool, so it is true unless element 0 was accepted (both refutations universal)."
  },
  {
   "property": "C233",
   "status": "partial",
   "theorems": [
    "C233_swap_int_self_refuted"
   ],
   "note": "False of the code, refuted for the cases the theorems name. Companion of C110, which holds the true part. On the unrestricted claim: Swap of a pair of integers with itself zeroes both members (refuted); everything else holds."
  },
  {
   "property": "C234",
   "status": "partial",
   "theorems": [
    "C234_null_get_refuted"
   ],
   "note": "False of the code, refuted for the cases the theorems name. Companion of C113, which holds the true part. On the unrestricted claim: C113_held_object_usable and C113_master_count hold in every state of such a history. C234_null_get_refuted: get() of a null layer3 pointer reads the control block through a null pointer."
  },
  {
   "property": "C235",
   "status": "partial",
   "theorems": [
    "C235_refusing_sink_refuted",
    "C235_partial_sink_refuted",
    "C235_uncounted_refuted"
   ],
   "note": "False of the code, refuted for the cases the theorems name. Companion of C118, which holds the true part. On the unrestricted claim: C118_sync: one pubsync with any sink while what it takes lies in one piece. False beyond: a sink that refuses makes the next sputc write past the storage (C235_refusing_sink_refuted), a sink that takes part makes a later pubsync hand it a null pointer (C235_partial_sink_refuted), and '\\xff' at a full buffer is stored but not counted (C235_uncounted_refuted)."
  },
  {
   "property": "C236",
   "status": "partial",
   "theorems": [
    "C236_signed_refuted"
   ],
   "note": "False of the code, refuted for the cases the theorems name. Companion of C119, which holds the true part. On the unrestricted claim: Proved for ASCII texts, any source, either character traits. C236_signed_refuted: underflow returns the char without to_int_type, so the first character of a refill is negative if it is not ASCII, and '\\xff' reads as end of file."
  },
  {
   "property": "C237",
   "status": "partial",
   "theorems": [
    "C237_copy_of_empty_refuted",
    "C237_not_nullable_refuted"
   ],
   "note": "False of the code, refuted for the cases the theorems name. Companion of C125, which holds the true part. On the unrestricted claim: Proved for nullable functions in all histories of C121; refuted for copies of empty functions and for functions declared not nullable after a move."
  },
  {
   "property": "C238",
   "status": "partial",
   "theorems": [
    "C238_inline_copy_refuted"
   ],
   "note": "False of the code, refuted for the cases the theorems name. Companion of C126, which holds the true part. On the unrestricted claim: Proved without copies; refuted for copies: they run the original's functor and dangle when it is destroyed."
  },
  {
   "property": "C239",
   "status": "partial",
   "theorems": [
    "C239_clear_position_refuted"
   ],
   "note": "False of the code, refuted for the cases the theorems name. Companion of C129, which holds the true part. On the unrestricted claim: Proved for a stream not yet read. False otherwise: the position stays, and the next read returns the old text at that position."
  },
  {
   "property": "C240",
   "status": "partial",
   "theorems": [
    "C240_isspace_refuted"
   ],
   "note": "False of the code, refuted for the cases the theorems name. Companion of C134, which holds the true part. On the unrestricted claim: False of the code: of the six only the space itself is accepted (internal/cctype.h:10-13). What is accepted is white space."
  },
  {
   "property": "C241",
   "status": "partial",
   "theorems": [
    "C241_wrapped_order_refuted"
   ],
   "note": "False of the code, refuted for the cases the theorems name. Companion of C141, which holds the true part. On the unrestricted claim: partial: the ticks must be representable in the common type; refuted: readings of a wrapping clock do not keep the order of the instants"
  },
  {
   "property": "C242",
   "status": "partial",
   "theorems": [
    "C242_small_steps_refuted"
   ],
   "note": "False of the code, refuted for the cases the theorems name. Companion of C142, which holds the true part. On the unrestricted claim: proved: the step is truncated to whole ticks of the time point; refuted as a law: a time point never advances by steps shorter than its tick"
  },
  {
   "property": "C243",
   "status": "partial",
   "theorems": [
    "C243_narrow_product_refuted",
    "C243_overflow_refuted",
    "C243_unsigned_factor_refuted"
   ],
   "note": "False of the code, refuted for the cases the theorems name. Companion of C143, which holds the true part. On the unrestricted claim: proved while the product and the factors are representable in their common type; refuted: products of narrow types are cut off silently, overflow of signed types is undefined, a negative duration times an unsigned number is wrong"
  },
  {
   "property": "C244",
   "status": "proved",
   "theorems": [
    "C244_one_queue",
    "C244_fifo"
   ],
   "note": "Each operation of the kernel queue is one atomic step; an operation that would wait leaves the task where it is, a timed one may also give up at any of its turns (when the queue is full resp. empty). Priorities are not modelled: a schedule is any list of turns, so the theorem holds for the priority scheduler too."
  },
  {
   "property": "C245",
   "status": "proved",
   "theorems": [
    "C245_producer_order",
    "C245_nothing_refused"
   ],
   "note": "The tag from tells the producer of a message; the theorem needs it only to name the messages of one task in the stream of received ones. The order across several consumers is that in which the receives completed."
  },
  {
   "property": "C246",
   "status": "proved",
   "theorems": [
    "C246_never_stuck",
    "C246_all_delivered"
   ],
   "note": "The example shows that with more receives than sends a task waits for ever."
  },
  {
   "property": "C247",
   "status": "partial",
   "theorems": [
    "C247_received_object_refuted",
    "C247_overwritten_object_refuted"
   ],
   "note": "Refuted: send and receive copy the bytes of the object. For every object with a resource, destroying the sent one makes the received one unusable, destroying both releases the resource twice, and what the receiver owned is never released."
  },
  {
   "property": "C248",
   "status": "partial",
   "theorems": [
    "C248_copied_queue_refuted",
    "C248_before"
   ],
   "note": "Refuted: the class has a destructor that deletes the handle and the copying the compiler provides. For every queue, destroying one copy makes the other unusable and its destruction undefined."
  },
  {
   "property": "C249",
   "status": "proved",
   "theorems": [
    "C249_sleep_in_ticks"
   ],
   "note": "See C250 for what does not hold. sleep_until does not compile for any clock (it passes a duration where an integer is expected) and is not modelled."
  },
  {
   "property": "C250",
   "status": "partial",
   "theorems": [
    "C250_sleeps_too_short_refuted"
   ],
   "note": "Refuted for every duration that is not a whole number of ticks and every call that does not coincide with a tick: the duration is rounded down to ticks, and the first of them is already running. See C249 for what holds."
  },
  {
   "property": "C251",
   "status": "proved",
   "theorems": [
    "C251_sets",
    "C251_tests",
    "C251_laws"
   ],
   "note": "operator|= of flags does not compile for any enumeration. For underlying types smaller than int, | & and ^ compile in constant expressions only."
  },
  {
   "property": "C252",
   "status": "proved",
   "theorems": [
    "C252_conversions",
    "C252_or",
    "C252_shifts",
    "C252_shift_amount"
   ],
   "note": "See C253 for larger shifts. The operators >>, &, ^ and ~ do not exist for estd::byte."
  },
  {
   "property": "C253",
   "status": "partial",
   "theorems": [
    "C253_shift_out_refuted"
   ],
   "note": "Refuted for every byte and count with b * 2^s >= 2^32: the byte is promoted to int, of which such a shift is undefined before C++20 (the library is for C++11). See C252 for what holds."
  },
  {
   "property": "C254",
   "status": "proved",
   "theorems": [
    "C254_range",
    "C254_length"
   ],
   "note": "See C255 for octal numerals of the other types."
  },
  {
   "property": "C255",
   "status": "partial",
   "theorems": [
    "C255_octal_length_refuted"
   ],
   "note": "Refuted: one character is missing for every value above half of the range of an unsigned type of 16 or 64 bits, and for the least value of a signed one. The callers in this library reserve one more."
  },
  {
   "property": "C256",
   "status": "proved",
   "theorems": [
    "C256_calls",
    "C256_once"
   ],
   "note": "What breaks without its preconditions is C257, C258, C259 and C260."
  },
  {
   "property": "C257",
   "status": "partial",
   "theorems": [
    "C257_copy_refuted"
   ],
   "note": "Refuted: the copy's pointer still points into the original, so the call is undefined once the original has ended.  Without such copies C256."
  },
  {
   "property": "C258",
   "status": "partial",
   "theorems": [
    "C258_second_refuted"
   ],
   "note": "Refuted: for every second static_function of the same functor type the functor is ignored, and the first one's is called and its state shared.  With one static_function per type C256."
  },
  {
   "property": "C259",
   "status": "partial",
   "theorems": [
    "C259_once_refuted"
   ],
   "note": "Refuted: a second call, and the end of the model after a call, use a functor that has been destroyed.  With one call and no end C256."
  },
  {
   "property": "C260",
   "status": "partial",
   "theorems": [
    "C260_empty_refuted",
    "C260_ended_refuted"
   ],
   "note": "Refuted: both are undefined, for every state, kind of model and argument.  Calls of live callables are C256."
  },
  {
   "property": "C261",
   "status": "proved",
   "theorems": [
    "C261_history"
   ],
   "note": "What breaks without its preconditions is C263, C264, C265, C266 and C267."
  },
  {
   "property": "C262",
   "status": "proved",
   "theorems": [
    "C262_regions",
    "C262_allocate"
   ],
   "note": "For the histories of C261."
  },
  {
   "property": "C263",
   "status": "partial",
   "theorems": [
    "C263_exact_fit_refuted"
   ],
   "note": "Refuted: if the chunk is first in the free list the program writes through an uninitialised pointer, for every history that leads there, and allocating the whole fresh storage is one.  Exact fits further down the list are covered by C261."
  },
  {
   "property": "C264",
   "status": "partial",
   "theorems": [
    "C264_small_rest_refuted"
   ],
   "note": "Refuted: the header of a remainder smaller than a header overlaps the region, for every such remainder of the fresh storage.  With larger remainders C261."
  },
  {
   "property": "C265",
   "status": "partial",
   "theorems": [
    "C265_no_handle_refuted"
   ],
   "note": "Refuted: the null handle is written through, after every history that uses up the handles.  With a free handle C261."
  },
  {
   "property": "C266",
   "status": "partial",
   "theorems": [
    "C266_maint_twice_refuted"
   ],
   "note": "Refuted: the second call follows a null pointer after every history that leaves two chunks which the first call merged or reordered.  One call at a time C261."
  },
  {
   "property": "C267",
   "status": "partial",
   "theorems": [
    "C267_maint_loses_refuted"
   ],
   "note": "Refuted: a merge followed by a reordering drops a chunk of the list.  One call at a time C261, C262."
  },
  {
   "property": "C268",
   "status": "proved",
   "theorems": [
    "C268_exclusive",
    "C268_contents",
    "C268_starts"
   ],
   "note": "What breaks without its preconditions is C271; the addresses of the blocks are C272."
  },
  {
   "property": "C269",
   "status": "proved",
   "theorems": [
    "C269_exclusive",
    "C269_contents",
    "C269_starts"
   ],
   "note": "Its count_free is C270."
  },
  {
   "property": "C270",
   "status": "partial",
   "theorems": [
    "C270_count_position_refuted",
    "C270_count_refuted"
   ],
   "note": "Refuted: it is N minus the position of the next block to be handed out, after every history; for every N of at least 2 it says N with a block live."
  },
  {
   "property": "C271",
   "status": "partial",
   "theorems": [
    "C271_construct_refuted"
   ],
   "note": "Refuted: it constructs at the null pointer after every history that uses up the pool.  With a free block C268."
  },
  {
   "property": "C272",
   "status": "partial",
   "theorems": [
    "C272_alignment_refuted"
   ],
   "note": "Refuted: for every type whose alignment exceeds the handle's size, one of the first two blocks is misaligned."
  },
  {
   "property": "C273",
   "status": "proved",
   "theorems": [
    "C273_number",
    "C273_no_number"
   ],
   "note": "Numbers that do not fit are C276 and C278."
  },
  {
   "property": "C274",
   "status": "proved",
   "theorems": [
    "C274_accepts_digits",
    "C274_then_converts"
   ],
   "note": "Texts that are not ASCII are C279, negative numbers C277, numbers that do not fit C276."
  },
  {
   "property": "C275",
   "status": "proved",
   "theorems": [
    "C275_one_character"
   ],
   "note": ""
  },
  {
   "property": "C276",
   "status": "partial",
   "theorems": [
    "C276_too_big_int_refuted",
    "C276_too_big_byte_refuted"
   ],
   "note": "Refuted: every accepted number of 2^31 or more makes fromString<int> undefined (atoi), and every accepted number from 2^8 on becomes a smaller unsigned char."
  },
  {
   "property": "C277",
   "status": "partial",
   "theorems": [
    "C277_negative_refuted"
   ],
   "note": "Refuted: every negative number converts but is rejected."
  },
  {
   "property": "C278",
   "status": "partial",
   "theorems": [
    "C278_rest_ignored_refuted",
    "C278_negative_refuted",
    "C278_too_big_refuted"
   ],
   "note": "Refuted: every text that starts with a digit is accepted, negative numbers are accepted and converted to 2^16 minus their size, larger ones reduced modulo 2^16."
  },
  {
   "property": "C279",
   "status": "partial",
   "theorems": [
    "C279_undefined_refuted"
   ],
   "note": "Refuted: a character below EOF after any number of digits is passed to isdigit.  ASCII texts are C274."
  },
  {
   "property": "C280",
   "status": "proved",
   "theorems": [
    "C280_number",
    "C280_no_number"
   ],
   "note": "What the range does not bound is C281, what else it accepts C282, the value after an error C283."
  },
  {
   "property": "C281",
   "status": "partial",
   "theorems": [
    "C281_past_the_end_refuted",
    "C281_array_of_digits_refuted"
   ],
   "note": "Refuted: last is only where strtol stores its end; digits after it are taken, and an array of digits is read beyond its end."
  },
  {
   "property": "C282",
   "status": "partial",
   "theorems": [
    "C282_blank_refuted",
    "C282_plus_refuted",
    "C282_hex_refuted"
   ],
   "note": "Refuted: strtol takes all three, for every number."
  },
  {
   "property": "C283",
   "status": "partial",
   "theorems": [
    "C283_no_number_refuted",
    "C283_too_big_refuted"
   ],
   "note": "Refuted: it becomes 0 or the largest long."
  },
  {
   "property": "C284",
   "status": "proved",
   "theorems": [
    "C284_named_types",
    "C284_enough",
    "C284_needed"
   ],
   "note": "Bare-metal 32-bit ARM, where int32_t is long, is left out: see C285."
  },
  {
   "property": "C285",
   "status": "partial",
   "theorems": [
    "C285_no_room_refuted",
    "C285_arm_int32_refuted",
    "C285_traits_refuted"
   ],
   "note": "Refuted: on each platform a type of the language that is none of the fixed-width ones has length 0; on bare-metal 32-bit ARM int32_t and uint32_t themselves have length 0; every int16_t from -32768 to -10000 needs six characters where the traits say five.  The fixed-width types are C284."
  },
  {
   "property": "C286",
   "status": "proved",
   "theorems": [
    "C286_log"
   ],
   "note": "Tags with a percent sign are C287."
  },
  {
   "property": "C287",
   "status": "partial",
   "theorems": [
    "C287_percent_refuted"
   ],
   "note": "Refuted: the tag is passed to the writer as a format with no arguments."
  },
  {
   "property": "C288",
   "status": "proved",
   "theorems": [
    "C288_word",
    "C288_cut",
    "C288_nothing"
   ],
   "note": "A stream that is not good is C290, a word that does not fit C291, a word with zeros C292, a source that has not ended C293."
  },
  {
   "property": "C289",
   "status": "proved",
   "theorems": [
    "C289_words",
    "C289_words_exist"
   ],
   "note": "Words that do not fit are C291."
  },
  {
   "property": "C290",
   "status": "partial",
   "theorems": [
    "C290_not_good_refuted"
   ],
   "note": "Refuted: value is always emptied and eofbit set, wherever the stream stands."
  },
  {
   "property": "C291",
   "status": "partial",
   "theorems": [
    "C291_long_refuted"
   ],
   "note": "Refuted: writing goes on outside the string, or an assert stops the program."
  },
  {
   "property": "C292",
   "status": "partial",
   "theorems": [
    "C292_zero_refuted"
   ],
   "note": "Refuted: every word with a 0 in it loses its zeros in a null terminated string."
  },
  {
   "property": "C293",
   "status": "proved",
   "theorems": [
    "C293_retry"
   ],
   "note": "The buffer is the span buffer of C47 with in_avail() answering 0 at its end; no buffer of the library does so today, but it is the case the code asks for."
  },
  {
   "property": "C294",
   "status": "proved",
   "theorems": [
    "C294_char",
    "C294_none"
   ],
   "note": "The character 0 with the standard traits is C295."
  },
  {
   "property": "C295",
   "status": "partial",
   "theorems": [
    "C295_zero_refuted"
   ],
   "note": "Refuted: the standard traits' not_eof answers 0 for it, which the code takes for end of file."
  },
  {
   "property": "C296",
   "status": "proved",
   "theorems": [
    "C296_blocked",
    "C296_answers",
    "C296_no_patience",
    "C296_for_ever",
    "C296_time_out"
   ],
   "note": "The operating system's event groups are modelled by their documentation; interrupts and deletion while tasks wait are not."
  },
  {
   "property": "C297",
   "status": "proved",
   "theorems": [
    "C297_flags",
    "C297_reaches_all"
   ],
   "note": "That one set can release many tasks is what C299 refutes for the reader who expects a semaphore."
  },
  {
   "property": "C298",
   "status": "proved",
   "theorems": [
    "C298_meeting"
   ],
   "note": "Times to wait are max_delay(); a task that gives up leaves its flag behind, as in C297."
  },
  {
   "property": "C299",
   "status": "partial",
   "theorems": [
    "C299_one_flag_many_tasks_refuted"
   ],
   "note": "Refuted for every state in which two tasks wait."
  },
  {
   "property": "C300",
   "status": "proved",
   "theorems": [
    "C300_life"
   ],
   "note": "Copies and failed creations are C301."
  },
  {
   "property": "C301",
   "status": "partial",
   "theorems": [
    "C301_copied_group_refuted",
    "C301_failed_creation_refuted"
   ],
   "note": "Refuted: two objects delete one group; the null handle of a failed creation is passed on."
  },
  {
   "property": "C302",
   "status": "proved",
   "theorems": [
    "C302_safe"
   ],
   "note": "The operating system's timer service is modelled by its documentation, with a tick count that does not wrap around."
  },
  {
   "property": "C303",
   "status": "proved",
   "theorems": [
    "C303_destroyed"
   ],
   "note": "What happens between the destructor and that moment is C306; a destructor whose command is lost is C307."
  },
  {
   "property": "C304",
   "status": "proved",
   "theorems": [
    "C304_stopped"
   ],
   "note": "What happens between stop() and that moment is C306."
  },
  {
   "property": "C305",
   "status": "proved",
   "theorems": [
    "C305_started"
   ],
   "note": "A timer that is reset while it runs may still call back for its old start before the command is taken."
  },
  {
   "property": "C306",
   "status": "partial",
   "theorems": [
    "C306_callback_after_stop_refuted",
    "C306_callback_after_destructor_refuted"
   ],
   "note": "Refuted for every state in which the callback is due."
  },
  {
   "property": "C307",
   "status": "partial",
   "theorems": [
    "C307_lost_delete_refuted"
   ],
   "note": "Refuted: the result of the delete command is ignored."
  },
  {
   "property": "C308",
   "status": "partial",
   "theorems": [
    "C308_static_storage_refuted"
   ],
   "note": "Refuted: the command only goes into a queue, and the storage ends with the object; the source says so too."
  },
  {
   "property": "C309",
   "status": "partial",
   "theorems": [
    "C309_copied_timer_refuted",
    "C309_failed_creation_refuted"
   ],
   "note": "Refuted: both objects delete one timer; the null handle is passed on."
  },
  {
   "property": "C310",
   "status": "partial",
   "theorems": [
    "C310_period_starts_refuted"
   ],
   "note": "Refuted for every live timer: xTimerChangePeriod starts it."
  },
  {
   "property": "C311",
   "status": "partial",
   "theorems": [
    "C311_active_after_start_refuted"
   ],
   "note": "Refuted: active() does not change before the timer task has run."
  },
  {
   "property": "C312",
   "status": "proved",
   "theorems": [
    "C312_vector_program",
    "C312_string_program"
   ],
   "note": "Assignment of one element proxy to another is C315; erase of wider elements is C181. erase(iterator) of a string is reached through its base class."
  },
  {
   "property": "C313",
   "status": "proved",
   "theorems": [
    "C313_vector_for_each",
    "C313_string_for_each",
    "C313_vector_backward",
    "C313_string_backward"
   ],
   "note": "Elements written to a null-terminated string must not be 0."
  },
  {
   "property": "C314",
   "status": "proved",
   "theorems": [
    "C314_vector_erase_if",
    "C314_string_erase_if"
   ],
   "note": "end() is asked again on every turn, as the loop does. What erase does to wider elements is C181."
  },
  {
   "property": "C315",
   "status": "partial",
   "theorems": [
    "C315_vector_element_refuted",
    "C315_string_element_refuted",
    "C315_rebound_refuted"
   ],
   "note": "Refuted for every container and pair of different elements: v[i] is a proxy whose copy assignment copies its pointer, so v[i] = v[j] does nothing, and a proxy kept in a variable comes to stand for element j."
  },
  {
   "property": "C316",
   "status": "proved",
   "theorems": [
    "C316_arrays"
   ],
   "note": "Initializer lists of another length are C317. estd::array::back() names a member its base class does not have and does not compile when used."
  },
  {
   "property": "C317",
   "status": "partial",
   "theorems": [
    "C317_long_refuted",
    "C317_short_refuted"
   ],
   "note": "Refuted for every array and every list of another length: too many values are written outside the array, and elements without a value are indeterminate. With the right length see C316."
  },
  {
   "property": "C318",
   "status": "proved",
   "theorems": [
    "C318_map",
    "C318_list"
   ],
   "note": "The Compare parameter and the flag presorted have no effect in the code. Initializer lists shorter than the map are C319."
  },
  {
   "property": "C319",
   "status": "partial",
   "theorems": [
    "C319_map_list_refuted"
   ],
   "note": "Refuted for every list that is too short and every key that is not in it: the search reads keys that were never written."
  },
  {
   "property": "C320",
   "status": "proved",
   "theorems": [
    "C320_stack"
   ],
   "note": "The vector operations are those of Dyn_Model.v. Assigning top() of one stack to top() of another is C315."
  },
  {
   "property": "C321",
   "status": "partial",
   "theorems": [
    "C321_const_top_refuted"
   ],
   "note": "Refuted for every history: the result is a reference to a proxy that is gone when top() returns; the non-const top() works."
  },
  {
   "property": "C322",
   "status": "proved",
   "theorems": [
    "C322_growing_containers_are_lists"
   ],
   "note": "reserve below size() is C326, refused requests C325, references into the container C327 and C328, copies C329; x.assign(x) copies a block onto itself with memcpy and is left out, and erase of larger elements moves too few bytes (C181). Sizes are unbounded numbers: the memory runs out before size_t does. A request for nothing may be refused, as realloc may do."
  },
  {
   "property": "C323",
   "status": "proved",
   "theorems": [
    "C323_blocks_are_owned"
   ],
   "note": "Ownership by blocks of the model's heap; the end of a container's scope is C324."
  },
  {
   "property": "C324",
   "status": "partial",
   "theorems": [
    "C324_scope_end_leaks_refuted"
   ],
   "note": "Refuted for every history and every container that is not empty: no class from the handle to the vector has a destructor, and the block stays allocated without an owner."
  },
  {
   "property": "C325",
   "status": "partial",
   "theorems": [
    "C325_refused_push_undefined_refuted",
    "C325_refused_reserve_loses_everything_refuted"
   ],
   "note": "Refuted for every history: a refused push_back of a full container writes through the invalid handle, and a refused reserve leaves size() 0 (while empty() says false) and the old block without an owner."
  },
  {
   "property": "C326",
   "status": "partial",
   "theorems": [
    "C326_reserve_below_size_refuted"
   ],
   "note": "Refuted for every history: the block becomes smaller than size() and elements beyond are outside it. With n >= size() see C322."
  },
  {
   "property": "C327",
   "status": "proved",
   "theorems": [
    "C327_push_own_element_with_room"
   ],
   "note": "When the container is full see C328."
  },
  {
   "property": "C328",
   "status": "partial",
   "theorems": [
    "C328_push_own_element_when_full_refuted"
   ],
   "note": "Refuted for every history in which the container is full and the reallocation moves the block: the reference is read after its block was released."
  },
  {
   "property": "C329",
   "status": "partial",
   "theorems": [
    "C329_copy_sees_writes_refuted",
    "C329_copy_dangles_refuted"
   ],
   "note": "Refuted for every history: the copy has the same handle; a write shows in both, and after one of them grew and moved the other reads released memory."
  },
  {
   "property": "C330",
   "status": "proved",
   "theorems": [
    "C330_insert_iterator_with_room",
    "C330_erase_iterator"
   ],
   "note": "Elements of one byte for erase (C181). A full container is C331."
  },
  {
   "property": "C331",
   "status": "partial",
   "theorems": [
    "C331_insert_iterator_when_full_refuted"
   ],
   "note": "Refuted for every history in which the container is not empty, full and the reallocation moves the block: insert returns the iterator it was given, into the released block."
  },
  {
   "property": "C332",
   "status": "proved",
   "theorems": [
    "C332_proxies_lock_and_unlock"
   ],
   "note": "The repository has no allocator with real locking: modelled is any that counts locks and may move unlocked blocks. Assignment between proxies is C333; conversions of locking_accessor and iterators are C334. stateful_locking_accessor::clock() has no return statement and stateful_nonlocking_accessor never sets its handle; both are unusable and not modelled."
  },
  {
   "property": "C333",
   "status": "partial",
   "theorems": [
    "C333_assigning_proxies_rebinds_refuted"
   ],
   "note": "Refuted for every history: t then stands for the element of u, and the element it stood for keeps its value."
  },
  {
   "property": "C334",
   "status": "partial",
   "theorems": [
    "C334_conversion_leaves_locked_refuted",
    "C334_iterator_life_refuted"
   ],
   "note": "Refuted for every memory: a conversion adds a lock nobody takes back; an iterator that was dereferenced d times leaves d - 1 locks, and if it never was, unlocks what is not locked. Exactly one dereference is balanced."
  },
  {
   "property": "C335",
   "status": "proved",
   "theorems": [
    "C335_offsets_exact",
    "C335_order_in_one_block"
   ],
   "note": "Size types of the width of int narrower than ptrdiff_t are C336."
  },
  {
   "property": "C336",
   "status": "partial",
   "theorems": [
    "C336_difference_of_unsigned_int_refuted"
   ],
   "note": "Refuted for every size type as wide as int or wider but narrower than ptrdiff_t and every a < b: the result is positive."
  },
  {
   "property": "C337",
   "status": "partial",
   "theorems": [
    "C337_ge_of_other_blocks_refuted"
   ],
   "note": "Refuted for equal offsets of every two different handles."
  },
  {
   "property": "C338",
   "status": "proved",
   "theorems": [
    "C338_calls",
    "C338_stored",
    "C338_outside",
    "C338_context",
    "C338_context_calls",
    "C338_compiles",
    "C338_stateless"
   ],
   "note": "States, values and contexts have one type each; handlers that notify again are not modelled. Observers that only handle a type with a context are not called without one (C340), proxies drop contexts (C341)."
  },
  {
   "property": "C339",
   "status": "proved",
   "theorems": [
    "C339_own_copies",
    "C339_strangers"
   ],
   "note": "The copy is what C342 is about."
  },
  {
   "property": "C340",
   "status": "partial",
   "theorems": [
    "C340_silently_lost_refuted"
   ],
   "note": "Refuted for every subject whose observers handle the type only together with a context: notify(n) calls nobody, changes nothing and compiles without complaint. That the others are called is C338."
  },
  {
   "property": "C341",
   "status": "partial",
   "theorems": [
    "C341_context_dropped_refuted"
   ],
   "note": "Refuted for every proxy and every subject behind it: the result is that of the notification without a context, and the context comes back as it was."
  },
  {
   "property": "C342",
   "status": "partial",
   "theorems": [
    "C342_original_unmoved_refuted"
   ],
   "note": "Refuted for every subject, also for every number of proxies and copies: the proxy notifies its copies. Observers the subject refers to are reached (C339_case)."
  },
  {
   "property": "C343",
   "status": "proved",
   "theorems": [
    "C343_device_input"
   ],
   "note": "Arduino's Stream is modelled from its documentation. Byte 255 where char is signed is C344. get() reports the end when nothing has arrived: C347. Input through posix_streambuf does not compile (streambuf::sgetc needs xsgetc) and is not modelled."
  },
  {
   "property": "C344",
   "status": "partial",
   "theorems": [
    "C344_byte_255_refuted"
   ],
   "note": "Refuted for byte 255 wherever char is signed (AVR, x86), whatever follows it: it reads as the end of input and is lost. Other bytes are C343."
  },
  {
   "property": "C345",
   "status": "proved",
   "theorems": [
    "C345_device_output"
   ],
   "note": "stdio's fwrite and fputc and Arduino's Print are modelled from their documentation. (char)-1 on Arduino is C346; streams over spans are C67."
  },
  {
   "property": "C346",
   "status": "partial",
   "theorems": [
    "C346_put_255_refuted"
   ],
   "note": "Refuted for (char)-1 wherever char is signed, on Arduino: it is sent and eofbit is set. On stdio streams and for other characters it holds (C345)."
  },
  {
   "property": "C347",
   "status": "partial",
   "theorems": [
    "C347_get_does_not_wait_refuted"
   ],
   "note": "Refuted for every state with nothing received: get() sets eofbit and failbit at once, after which peek() does not wait either and sees nothing of what arrives."
  },
  {
   "property": "C348",
   "status": "partial",
   "theorems": [
    "C348_reads_past_refuted"
   ],
   "note": "Refuted whenever the device takes a part and then more than what is left: the loop offers n characters again from the advanced pointer. The feature is off by default (FEATURE_ESTD_OSTREAM_TIMEOUT). What holds is C350."
  },
  {
   "property": "C349",
   "status": "partial",
   "theorems": [
    "C349_timeout_silent_refuted"
   ],
   "note": "Refuted for every write that runs out of time: the state of the stream does not change."
  },
  {
   "property": "C350",
   "status": "proved",
   "theorems": [
    "C350_sent_in_parts"
   ],
   "note": "Devices that take more than what is left are C348, time-outs C349."
  },
  {
   "property": "C351",
   "status": "proved",
   "theorems": [
    "C351_reads_as_its_text",
    "C351_copied_and_appended",
    "C351_compared",
    "C351_order_means",
    "C351_written"
   ],
   "note": "avr-libc's memcpy_P, strnlen_P and strncmp_P are modelled from their documentation. Longer strings are C352, copies from the middle C353, comparison of texts with a NUL C354, larger field widths C357."
  },
  {
   "property": "C352",
   "status": "partial",
   "theorems": [
    "C352_cut_refuted"
   ],
   "note": "Refuted for every null-terminated string of more than 256 characters: size, loops and copies stop at 256 and it is not equal to its own text. Shorter ones are C351."
  },
  {
   "property": "C353",
   "status": "partial",
   "theorems": [
    "C353_copy_past_the_end_refuted"
   ],
   "note": "Refuted for every pos > 0 with count >= size: the number copied is min(count, size) whatever pos is, so what lies behind the string is copied too, and a destination sized for the rest overflows. pos = 0 is C351 and C355."
  },
  {
   "property": "C354",
   "status": "partial",
   "theorems": [
    "C354_nul_hides_refuted"
   ],
   "note": "Refuted for every text with a NUL: strncmp_P stops there. Texts without NUL are C351."
  },
  {
   "property": "C355",
   "status": "proved",
   "theorems": [
    "C355_array_reads_as_written",
    "C355_test_container_reads_as_written"
   ],
   "note": "Copies from the middle are C353; indexing a test_container of wider elements is C356."
  },
  {
   "property": "C356",
   "status": "partial",
   "theorems": [
    "C356_wrong_element_refuted"
   ],
   "note": "Refuted for every wider element type: index i reads the element at i * sizeof(T), outside the container for larger i. What holds is C355."
  },
  {
   "property": "C357",
   "status": "partial",
   "theorems": [
    "C357_width_pads_one_character_refuted"
   ],
   "note": "Refuted for every width above 1: the first character alone is padded, so width - 1 fill characters and then the whole text are written. Width at most 1 is C351."
  },
  {
   "property": "C358",
   "status": "proved",
   "theorems": [
    "C358_removals",
    "C358_only_result",
    "C358_additions"
   ],
   "note": "Types are a grammar (Tt_Lang.v), templates with partial specializations tables of patterns. C++11 and later."
  },
  {
   "property": "C359",
   "status": "proved",
   "theorems": [
    "C359_categories",
    "C359_is_same"
   ],
   "note": "A platform says how large the types are and whether char and wchar_t are signed. The traits that are not right for every type are C360."
  },
  {
   "property": "C360",
   "status": "proved",
   "theorems": [
    "C360_functions_classes_enums"
   ],
   "note": "The exceptions are C361 to C364."
  },
  {
   "property": "C361",
   "status": "partial",
   "theorems": [
    "C361_variadic_functions_refuted"
   ],
   "note": "Refuted for every such function type: FEATURE_CPP_AMBIGUOUS_ELLIPSES, which guards the specializations, is defined nowhere. Other functions are C360."
  },
  {
   "property": "C362",
   "status": "partial",
   "theorems": [
    "C362_unions_refuted"
   ],
   "note": "Refuted for every union: is_union is false for every type. Other types are C360."
  },
  {
   "property": "C363",
   "status": "partial",
   "theorems": [
    "C363_not_enumerations_refuted"
   ],
   "note": "Refuted for nullptr_t and every pointer to a member. Other types are C360."
  },
  {
   "property": "C364",
   "status": "partial",
   "theorems": [
    "C364_not_arithmetic_refuted"
   ],
   "note": "Refuted for every type that is not arithmetic. Arithmetic types are C360."
  },
  {
   "property": "C365",
   "status": "proved",
   "theorems": [
    "C365_references",
    "C365_forward_and_move",
    "C365_pointers",
    "C365_decay"
   ],
   "note": "The exceptions are C366 and C367."
  },
  {
   "property": "C366",
   "status": "partial",
   "theorems": [
    "C366_no_reference_refuted"
   ],
   "note": "Refuted for every such type: the instantiation is an error (void itself has add_lvalue_reference). Others are C365."
  },
  {
   "property": "C367",
   "status": "partial",
   "theorems": [
    "C367_stay_functions_refuted",
    "C367_errors_refuted"
   ],
   "note": "Refuted: noexcept functions stay functions in both, variadic ones in decay, and decay of functions with qualifiers is an error. Others are C365."
  },
  {
   "property": "C368",
   "status": "proved",
   "theorems": [
    "C368_make_signed"
   ],
   "note": "Platforms are those where char16_t, char32_t, wchar_t and enumerations have the size of a standard integer type."
  },
  {
   "property": "C369",
   "status": "proved",
   "theorems": [
    "C369_make_unsigned"
   ],
   "note": "Which type of that size is C370."
  },
  {
   "property": "C370",
   "status": "partial",
   "theorems": [
    "C370_no_type_refuted",
    "C370_wrong_type_refuted"
   ],
   "note": "Refuted: there is no type for any other or qualified type; and whenever two signed types have the same size (long and long long, int and short on AVR) one of them gets the wrong one. What holds is C369."
  },
  {
   "property": "C371",
   "status": "proved",
   "theorems": [
    "C371_is_base_of"
   ],
   "note": "A hierarchy gives, for two classes, whether one is a base of the other and whether the pointer conversion is accessible and unambiguous. Unions are C372."
  },
  {
   "property": "C372",
   "status": "partial",
   "theorems": [
    "C372_union_refuted"
   ],
   "note": "Refuted for every union with itself. Other types are C371."
  },
  {
   "property": "C373",
   "status": "proved",
   "theorems": [
    "C373_conjunction_disjunction",
    "C373_stops",
    "C373_values"
   ],
   "note": "Traits are given by their value, or an error if looking at it is one."
  },
  {
   "property": "C374",
   "status": "proved",
   "theorems": [
    "C374_functions",
    "C374_methods"
   ],
   "note": "A program's classes are given by the type of their call operator. Other callables are C375."
  },
  {
   "property": "C375",
   "status": "partial",
   "theorems": [
    "C375_other_callables_refuted"
   ],
   "note": "Refuted for every function that is variadic, noexcept or qualified, every member that is variadic, noexcept, volatile or ref-qualified, objects with such a call operator, and every pointer to a function: there is no such type. What is known is C374."
  },
  {
   "property": "C376",
   "status": "proved",
   "theorems": [
    "C376_exists",
    "C376_order",
    "C376_repetition",
    "C376_values"
   ],
   "note": "Built on the language rules for promotions and usual arithmetic conversions (Fnt_Lang.v). What ?: gives for other types is a parameter."
  },
  {
   "property": "C377",
   "status": "partial",
   "theorems": [
    "C377_negative_values_refuted"
   ],
   "note": "Refuted for every signed type from int on together with its unsigned partner. What holds is C376."
  },
  {
   "property": "C378",
   "status": "proved",
   "theorems": [
    "C378_div"
   ],
   "note": "The exceptions are C379. charconv uses div only under FEATURE_ESTD_TO_CHARS_LIBC_DIV, which is not modelled there."
  },
  {
   "property": "C379",
   "status": "partial",
   "theorems": [
    "C379_least_value_refuted",
    "C379_long_refuted"
   ],
   "note": "Refuted: the least value of a type narrower than int by -1 gives the least value again; div<long> without <cstdlib> takes int and divides something else for every value outside int. What holds is C378."
  },
  {
   "property": "C380",
   "status": "proved",
   "theorems": [
    "C380_no_error_is_success",
    "C380_different_errors"
   ],
   "note": "The collision is C381."
  },
  {
   "property": "C381",
   "status": "partial",
   "theorems": [
    "C381_same_number_refuted"
   ],
   "note": "Refuted for every numbering with ERANGE 10, 20, 30 or 40 above EDOM and no further errno numbers. The usual numbering (33, 34) is C380."
  },
  {
   "property": "C382",
   "status": "proved",
   "theorems": [
    "C382_text_over_moving_memory"
   ],
   "note": "Memory is never refused here (refusals: Grow, C325). What the preconditions exclude is C384, C385, C387, and C31, C32, C73, C182, C186 for searches, self insertion, terminators and equal prefixes."
  },
  {
   "property": "C383",
   "status": "proved",
   "theorems": [
    "C383_locks_are_given_back"
   ],
   "note": "Unconditional: also for states no program reaches. The exception data() is C386."
  },
  {
   "property": "C384",
   "status": "partial",
   "theorems": [
    "C384_size_releases_users_lock_refuted",
    "C384_own_address_goes_stale_refuted"
   ],
   "note": "Refuted for every null-terminated string over uncounted locks: size() locks and unlocks, which releases the lock the user, or erase, find, find_first_of, copy holds. What holds is C382."
  },
  {
   "property": "C385",
   "status": "partial",
   "theorems": [
    "C385_insert_self_stale_refuted"
   ],
   "note": "Refuted for every vector or string with a length of its own whose memory is too small for the result: it is reallocated while the old address is the source. What holds is C382; over fixed memory C73."
  },
  {
   "property": "C386",
   "status": "partial",
   "theorems": [
    "C386_data_keeps_the_lock_refuted"
   ],
   "note": "Refuted for every state and every program without an unlock of the user's."
  },
  {
   "property": "C387",
   "status": "partial",
   "theorems": [
    "C387_no_memory_to_lock_refuted"
   ],
   "note": "Refuted for every container without memory: all of these lock an invalid handle. What holds is C382."
  },
  {
   "property": "C388",
   "status": "proved",
   "theorems": [
    "C388_nearest"
   ],
   "note": "Each operation is rounded to the type read (FLT_EVAL_METHOD 0), to nearest; zeros of both signs are one value. Beyond the limits: C389, C397. A second point: C391."
  },
  {
   "property": "C389",
   "status": "proved",
   "theorems": [
    "C389_error"
   ],
   "note": "The bound is (1-eps)^(2n+1)/(1+eps)^k to (1+eps)^(2n+1)/(1-eps)^k times the number, eps = 2^-prec, n digits, k places. Outside the limits: C392, C393, C394."
  },
  {
   "property": "C390",
   "status": "proved",
   "theorems": [
    "C390_nothing"
   ],
   "note": "A plus sign is such a character. A lone minus or point is C396."
  },
  {
   "property": "C391",
   "status": "partial",
   "theorems": [
    "C391_two_points_refuted"
   ],
   "note": "Refuted for every text a.b.c: it is consumed whole and read as ab.c. What holds is C388."
  },
  {
   "property": "C392",
   "status": "partial",
   "theorems": [
    "C392_places_refuted"
   ],
   "note": "Refuted for every number of 255 or more places: the count has 8 bits, wraps to 0 and stays there, and the point is ignored. What holds is C388, C389."
  },
  {
   "property": "C393",
   "status": "partial",
   "theorems": [
    "C393_too_large_refuted"
   ],
   "note": "Refuted for every integer of 2^(emax+1) or more: an infinity, without failbit. What holds is C389."
  },
  {
   "property": "C394",
   "status": "partial",
   "theorems": [
    "C394_nan_refuted",
    "C394_infinity_refuted",
    "C394_zero_refuted"
   ],
   "note": "Refuted: a float with 39 to 254 places whose digits are beyond the range reads as NaN (1.000...), digits beyond the range with fewer places as an infinity, few digits behind 39 or more places as zero, although floats hold such numbers. What holds is C389."
  },
  {
   "property": "C395",
   "status": "partial",
   "theorems": [
    "C395_exponent_refuted"
   ],
   "note": "Refuted for every number with an exponent: read up to the letter. What holds is C388."
  },
  {
   "property": "C396",
   "status": "partial",
   "theorems": [
    "C396_no_digit_refuted"
   ],
   "note": "Refuted for a minus, a point, and a minus and a point, whatever follows. What holds is C390."
  },
  {
   "property": "C397",
   "status": "partial",
   "theorems": [
    "C397_long_refuted"
   ],
   "note": "Refuted for digits one more than the significand holds, in both formats. What holds is C388, C389."
  },
  {
   "property": "C398",
   "status": "proved",
   "theorems": [
    "C398_own",
    "C398_reserved",
    "C398_first_block",
    "C398_balance"
   ],
   "note": "The class is neither trivial nor trivially copyable (otherwise: C27, C322). Other ways to remove: C399; other ways to add: C400, C401; growing: C405. Insertion of const T& does not compile."
  },
  {
   "property": "C399",
   "status": "partial",
   "theorems": [
    "C399_gone_refuted",
    "C399_shrink_refuted",
    "C399_clear_refuted",
    "C399_reuse_refuted",
    "C399_erase_refuted"
   ],
   "note": "Refuted after every history of C398 that leaves an element: no destructor runs at the end of the vector, in clear, in a shrinking resize or in erase of the last element; an element added after clear overwrites an old object. What holds is C398."
  },
  {
   "property": "C400",
   "status": "partial",
   "theorems": [
    "C400_append_refuted",
    "C400_push_back_refuted",
    "C400_initializer_list_refuted",
    "C400_insert_range_refuted",
    "C400_insert_refuted"
   ],
   "note": "Refuted after every history of C398: assignment to storage without an object, for push_back(const T&), append, ranges, initializer lists, and insert before an element when the class is move assignable. What holds is C398, C401, C403."
  },
  {
   "property": "C401",
   "status": "proved",
   "theorems": [
    "C401_insert"
   ],
   "note": "For move assignable classes: C400. The objects left behind: C402."
  },
  {
   "property": "C402",
   "status": "partial",
   "theorems": [
    "C402_insert_refuted"
   ],
   "note": "Refuted for every insertion before an element: each element moved leaves one object that is never destroyed. The sequence is right: C401."
  },
  {
   "property": "C403",
   "status": "proved",
   "theorems": [
    "C403_array"
   ],
   "note": "What is not allowed in such a history: C404."
  },
  {
   "property": "C404",
   "status": "partial",
   "theorems": [
    "C404_pop_refuted",
    "C404_push_refuted"
   ],
   "note": "Refuted: after pop_back the end of the array destroys a destroyed object and push_back(const T&) assigns to it; push_back of a temporary and emplace_back construct over an object that is never destroyed. What holds is C403."
  },
  {
   "property": "C405",
   "status": "partial",
   "theorems": [
    "C405_copy_refuted",
    "C405_growth_refuted"
   ],
   "note": "Refuted: the copy constructor copies the bytes of the storage, reallocation moves them; reading such an element is undefined. What holds is C398."
  },
  {
   "property": "C406",
   "status": "partial",
   "theorems": [
    "C406_resize_refuted",
    "C406_erase_refuted"
   ],
   "note": "Refuted: the places added hold no objects; erase of any but the last element moves bytes of objects. What holds is C398."
  },
  {
   "property": "C407",
   "status": "proved",
   "theorems": [
    "C407_reads",
    "C407_no_digit"
   ],
   "note": "With the builtins: C12, C13. A negative number followed by something loses its sign here too (C170). The rest is refuted in C410. int has 32 bits."
  },
  {
   "property": "C408",
   "status": "proved",
   "theorems": [
    "C408_reads",
    "C408_no_digit"
   ],
   "note": "With the builtins: C16, C17. Numbers that do not fit: C409, C411."
  },
  {
   "property": "C409",
   "status": "proved",
   "theorems": [
    "C409_from_chars",
    "C409_stream"
   ],
   "note": "Types int and wider: C410, C411."
  },
  {
   "property": "C410",
   "status": "partial",
   "theorems": [
    "C410_unnoticed_refuted",
    "C410_least_refuted"
   ],
   "note": "Refuted for every number that does not fit: success with another number, or undefined behaviour for int and wider; and for the least value of int and wider types. What holds is C407, C409."
  },
  {
   "property": "C411",
   "status": "partial",
   "theorems": [
    "C411_unnoticed_refuted"
   ],
   "note": "Refuted for every number that does not fit: failbit stays off, or undefined behaviour for int and wider. What holds is C408, C409."
  },
  {
   "property": "C412",
   "status": "proved",
   "theorems": [
    "C412_life"
   ],
   "note": "The values of trivial types: C25. Keys are trivial; erasure excludes bucket 0, as in C25. Calls that do not keep to this are refuted in C413-C416."
  },
  {
   "property": "C413",
   "status": "partial",
   "theorems": [
    "C413_clear_refuted",
    "C413_end_refuted"
   ],
   "note": "Refuted for every history: clear() is undefined, as the destructor also runs in empty slots, of which there is always one, and the end of the map destroys no element."
  },
  {
   "property": "C414",
   "status": "partial",
   "theorems": [
    "C414_new_refuted"
   ],
   "note": "Refuted for every new key: only the key is set, no mapped object is made, so that reading, assigning or erasing it is undefined."
  },
  {
   "property": "C415",
   "status": "partial",
   "theorems": [
    "C415_over_refuted"
   ],
   "note": "Refuted for every present key: a new object is made over the old one."
  },
  {
   "property": "C416",
   "status": "partial",
   "theorems": [
    "C416_gc_refuted",
    "C416_erase_refuted"
   ],
   "note": "Refuted: gc_active of every element with a hole before it in its bucket, and erase_and_gc of every element with another in the next slot, swap with a destroyed object. Trivial types: C70."
  },
  {
   "property": "C417",
   "status": "partial",
   "theorems": [
    "C417_lost_refuted",
    "C417_erase_refuted"
   ],
   "note": "Refuted: each insertion makes a key over the null key, and erase assigns to the key it has destroyed."
  },
  {
   "property": "C418",
   "status": "proved",
   "theorems": [
    "C418_new",
    "C418_peek",
    "C418_peek_not_good",
    "C418_unget",
    "C418_read",
    "C418_readsome",
    "C418_getline"
   ],
   "note": "What the calls deliver: C47, C49, C50, C62. Other calls: C419-C421. readsome at end of input: C205."
  },
  {
   "property": "C419",
   "status": "partial",
   "theorems": [
    "C419_get_refuted",
    "C419_gets_refuted",
    "C419_overflow_refuted"
   ],
   "note": "Refuted for every stream: get() adds one to the earlier value, also at end of input, and never resets it, so n calls give n, and from 2^31 on the counter overflows, which is undefined."
  },
  {
   "property": "C420",
   "status": "partial",
   "theorems": [
    "C420_ignore_refuted",
    "C420_ignore_until_refuted",
    "C420_read_refuted",
    "C420_getline_refuted"
   ],
   "note": "Refuted: ignore adds two per character passed, and one at end of input or for the delimiter; a short read gives the number asked for; getline does not count the delimiter."
  },
  {
   "property": "C421",
   "status": "partial",
   "theorems": [
    "C421_ws_refuted",
    "C421_int_refuted",
    "C421_char_refuted"
   ],
   "note": "Refuted for every stream: ws peeks, which sets gcount to 0, as does >> into an integer; >> into a character leaves 1. The comment in operator>> says that it does not update gcount."
  },
  {
   "property": "C422",
   "status": "proved",
   "theorems": [
    "C422_forward_list_values",
    "C422_list_values"
   ],
   "note": "Order and structure: C82, C42. Destruction: C423."
  },
  {
   "property": "C423",
   "status": "partial",
   "theorems": [
    "C423_forward_list_refuted",
    "C423_list_refuted",
    "C423_nodes_refuted"
   ],
   "note": "Refuted for every history: no destructor of an element ever runs (destroy of the node traits is never called), and no list class has a destructor. pop_front gives the storage back (C83), erase_after not even that (C216)."
  },
  {
   "property": "C424",
   "status": "partial",
   "theorems": [
    "C424_copy_refuted"
   ],
   "note": "Refuted for every list with an element: the implicit copy constructor copies the front pointer, so after pop_front on one, pop_front and traversal of the other use storage that was given back."
  },
  {
   "property": "C425",
   "status": "proved",
   "theorems": [
    "C425_for_each",
    "C425_post_each",
    "C425_distance",
    "C425_end",
    "C425_proxy"
   ],
   "note": "Exhausted buffers: C426. The character -1: C427. Texts of 2^16 characters: C193."
  },
  {
   "property": "C426",
   "status": "partial",
   "theorems": [
    "C426_exhausted_refuted"
   ],
   "note": "Refuted for every text: such an iterator differs from the end, shows -1, and a loop from it takes one character that is not there; distance is 1."
  },
  {
   "property": "C427",
   "status": "partial",
   "theorems": [
    "C427_ff_refuted"
   ],
   "note": "Refuted for every text that has the character -1 (shorter than 2^15), with the library's own traits: its int value is that of end of file, so ++ does not pass it, and the loop never ends."
  },
  {
   "property": "C428",
   "status": "proved",
   "theorems": [
    "C428_write",
    "C428_null"
   ],
   "note": "Whether it failed: C429. There is no operator*, so *it = c does not compile and the iterator cannot be used with the algorithms."
  },
  {
   "property": "C429",
   "status": "partial",
   "theorems": [
    "C429_success_refuted",
    "C429_failure_refuted",
    "C429_unwritten_refuted"
   ],
   "note": "Refuted for every buffer: failed() is true after a character was stored and false after one was not; before the first write it reads an uninitialised variable."
  },
  {
   "property": "C430",
   "status": "proved",
   "theorems": [
    "C430_maps"
   ],
   "note": "The name says filter: C431. There is no comparison, so the end has to be known."
  },
  {
   "property": "C431",
   "status": "partial",
   "theorems": [
    "C431_all_elements_refuted"
   ],
   "note": "Refuted for every array with an element that is not accepted: all elements are gone over, and what is shown is the predicate's answer."
  },
  {
   "property": "C432",
   "status": "proved",
   "theorems": [
    "C432_two_decimals"
   ],
   "note": "Between -1 and 0: C433. Larger: C435. Widths pad the integer part only: C436. The base flag: C437. That the nearest double to k/100 can print as (k-1)/100: C434."
  },
  {
   "property": "C433",
   "status": "partial",
   "theorems": [
    "C433_sign_refuted"
   ],
   "note": "Refuted for every double strictly between -1 and 0: it prints as its opposite. Otherwise C432."
  },
  {
   "property": "C434",
   "status": "partial",
   "theorems": [
    "C434_hundredths_refuted"
   ],
   "note": "Refuted by 0.29 on every stream: it prints as 0.28. Never off by more than that: C432."
  },
  {
   "property": "C435",
   "status": "partial",
   "theorems": [
    "C435_large_refuted"
   ],
   "note": "Refuted for infinities, NaN and every double of 2^57 or more (the conversions to int64_t are undefined)."
  },
  {
   "property": "C436",
   "status": "partial",
   "theorems": [
    "C436_width_refuted"
   ],
   "note": "Refuted for every double of C432 and every width above the length of its integer part."
  },
  {
   "property": "C437",
   "status": "partial",
   "theorems": [
    "C437_base_refuted"
   ],
   "note": "Refuted: every insertion that is defined leaves base ten."
  },
  {
   "property": "C438",
   "status": "proved",
   "theorems": [
    "C438_starts",
    "C438_safe",
    "C438_state"
   ],
   "note": "The managed object's destructor does not run: C439. Without the bytes surviving: C440. pool.destroy: C441. A used-up pool: C442. A pool pointer without an object: C443. Copies after the reset: C444. Shared pointers on their own: C112."
  },
  {
   "property": "C439",
   "status": "partial",
   "theorems": [
    "C439_never_refuted",
    "C439_last_owner_refuted"
   ],
   "note": "Refuted: it is called in no history. That the block goes back: C438."
  },
  {
   "property": "C440",
   "status": "partial",
   "theorems": [
    "C440_pointer_refuted",
    "C440_follower_refuted"
   ],
   "note": "Refuted for every history: the deleter reads pointers that the constructor left indeterminate."
  },
  {
   "property": "C441",
   "status": "partial",
   "theorems": [
    "C441_sole_owner_refuted",
    "C441_other_owners_refuted"
   ],
   "note": "Refuted: the block of a sole owner is put on the free list twice, so the next two objects share it and count_free() does not return; with other owners the block goes back under them and the next object takes their place. The destructor calls itself, which the language leaves undefined; the theorem is about what the code then does."
  },
  {
   "property": "C442",
   "status": "partial",
   "theorems": [
    "C442_full_refuted"
   ],
   "note": "Refuted: the pointer is constructed at the null pointer."
  },
  {
   "property": "C443",
   "status": "partial",
   "theorems": [
    "C443_no_object_refuted"
   ],
   "note": "Refuted for a pointer that has had no object, as the test's comment says; C438 covers the others."
  },
  {
   "property": "C444",
   "status": "partial",
   "theorems": [
    "C444_copy_refuted"
   ],
   "note": "Refuted for every copy of the only owner left after the reset; the next make_shared puts its object there. Cf. C114."
  },
  {
   "property": "C445",
   "status": "proved",
   "theorems": [
    "C445_output_position"
   ],
   "note": "Seeking does nothing else: C446."
  },
  {
   "property": "C446",
   "status": "partial",
   "theorems": [
    "C446_output_seek_refuted"
   ],
   "note": "Refuted for every state: the arguments of seekoff are not looked at, and the next character is appended (C445)."
  },
  {
   "property": "C447",
   "status": "proved",
   "theorems": [
    "C447_year_near",
    "C447_never_back",
    "C447_day",
    "C447_month"
   ],
   "note": "Not the Gregorian date, and not always a date: C219."
  },
  {
   "property": "C448",
   "status": "proved",
   "theorems": [
    "C448_erase_at"
   ],
   "note": "When nothing is behind the element: C449. Erasing by key: C25."
  },
  {
   "property": "C449",
   "status": "partial",
   "theorems": [
    "C449_erase_last_refuted"
   ],
   "note": "Refuted for every history: the search reads the slot past the end before it compares with the end. With an element behind: C448."
  },
  {
   "property": "C450",
   "status": "proved",
   "theorems": [
    "C450_bucket_size"
   ],
   "note": ""
  },
  {
   "property": "C451",
   "status": "proved",
   "theorems": [
    "C451_erase_and_gc"
   ],
   "note": "Keys with others of the bucket behind them: C452."
  },
  {
   "property": "C452",
   "status": "partial",
   "theorems": [
    "C452_middle_refuted"
   ],
   "note": "Refuted for every key that is neither first nor last in its bucket: the slot stays empty without a mark and the search for every later key of the bucket ends there. Cf. C451."
  },
  {
   "property": "C453",
   "status": "partial",
   "theorems": [
    "C453_debug_refuted",
    "C453_ndebug_refuted"
   ],
   "note": "Refuted: with assertions every call stops the program, also reserve of what is there already; without them every call answers true."
  },
  {
   "property": "C454",
   "status": "proved",
   "theorems": [
    "C454_date_ok"
   ],
   "note": "Days beyond the end of a shorter month: C455."
  },
  {
   "property": "C455",
   "status": "partial",
   "theorems": [
    "C455_no_such_day_refuted"
   ],
   "note": "Refuted for every such day: only the range 1 to 31 is checked. Cf. C454."
  },
  {
   "property": "C456",
   "status": "proved",
   "theorems": [
    "C456_arduino_whole_milliseconds"
   ],
   "note": "The other durations: C457. Under FreeRTOS: C249, C250."
  },
  {
   "property": "C457",
   "status": "partial",
   "theorems": [
    "C457_may_sleep_less_refuted"
   ],
   "note": "Refuted for every duration that is not a whole number of milliseconds: the conversion rounds down. What holds: C456."
  },
  {
   "property": "C458",
   "status": "partial",
   "theorems": [
    "C458_freertos_negative_refuted",
    "C458_arduino_negative_refuted"
   ],
   "note": "Refuted: the count becomes unsigned, so that the call blocks for 2^31 - 1 ticks or more. Durations that are not negative: C249, C456."
  },
  {
   "property": "C459",
   "status": "proved",
   "theorems": [
    "C459_different"
   ],
   "note": "It says nothing of what comes out for equal keys: C460."
  },
  {
   "property": "C460",
   "status": "partial",
   "theorems": [
    "C460_same_refuted"
   ],
   "note": "Refuted for every table: after the last element the iterator reads the slot past the end (cf. C68). When the keys differ: C459."
  },
  {
   "property": "C461",
   "status": "partial",
   "theorems": [
    "C461_order_refuted"
   ],
   "note": "Refuted for all keys of one bucket: keys are compared slot by slot, and the slots follow the order of insertion."
  },
  {
   "property": "C462",
   "status": "proved",
   "theorems": [
    "C462_same_size",
    "C462_defined"
   ],
   "note": "Elements: C463. Rolling over: C464."
  },
  {
   "property": "C463",
   "status": "partial",
   "theorems": [
    "C463_moved_from_value_refuted",
    "C463_source_gone_refuted",
    "C463_popped_refuted"
   ],
   "note": "Refuted: the new deque's pointers point into the deque moved from. front() is the value the move left there, for every history; every access is undefined once that deque is gone; with destructors, moving after a pop is undefined."
  },
  {
   "property": "C464",
   "status": "partial",
   "theorems": [
    "C464_no_rollover_refuted"
   ],
   "note": "Refuted for every history: N + 1 rounds of push and pop are undefined. The deque moved from goes on for ever: C19."
  },
  {
   "property": "C465",
   "status": "proved",
   "theorems": [
    "C465_sleep_for",
    "C465_sleep_until",
    "C465_passed"
   ],
   "note": "Negative durations: C466. What sleep_us, delayed_by_us and sleep_until of the SDK do is taken from its documentation (Slp_Spec.v)."
  },
  {
   "property": "C466",
   "status": "partial",
   "theorems": [
    "C466_negative_refuted",
    "C466_before_boot_refuted"
   ],
   "note": "Refuted for every negative duration of whole microseconds: the count becomes unsigned. Durations that are not negative: C465."
  },
  {
   "property": "C467",
   "status": "proved",
   "theorems": [
    "C467_from_std",
    "C467_time_point",
    "C467_back",
    "C467_cast"
   ],
   "note": "Products that overflow and results that are not representable: C468. That the standard library accepts an estd::ratio where it expects an std::ratio is taken for granted (Sch_Model.v)."
  },
  {
   "property": "C468",
   "status": "partial",
   "theorems": [
    "C468_product_overflow_refuted",
    "C468_narrowed_refuted"
   ],
   "note": "Refuted for every count whose product with the numerator overflows 64 bits, and for every result that is not representable, which is narrowed silently. Within those limits: C467."
  },
  {
   "property": "C469",
   "status": "proved",
   "theorems": [
    "C469_moved",
    "C469_in_place",
    "C469_value_returned",
    "C469_finer_rejected"
   ],
   "note": "Unrepresentable results: C470. The arithmetic of std::chrono is modelled as the C++ standard has it (Sch_Model.v)."
  },
  {
   "property": "C470",
   "status": "partial",
   "theorems": [
    "C470_before_epoch_refuted",
    "C470_past_the_end_refuted"
   ],
   "note": "Refuted for every time before the epoch and unsigned 64 bit duration that does not reach it, and for every signed sum past the last instant. What is representable: C469."
  },
  {
   "property": "C471",
   "status": "partial",
   "theorems": [
    "C471_dropped_refuted"
   ],
   "note": "False of the code: overflow tests traits::not_eof(ch) on the character itself, so '\\xff' is taken for end of file, and with std::char_traits (whose not_eof answers its argument) the null character for false; both are dropped and '*' is answered. Refuted for every such character. Companion of C49."
  },
  {
   "property": "C472",
   "status": "partial",
   "theorems": [
    "C472_sync_refuted",
    "C472_full_refuted"
   ],
   "note": "False of the code: ll_sync ignores what the wrapped sputn answers, clears the buffer and answers 0. Refuted for every buffer whose wrapped buffer takes less than all of it, at pubsync and at a sputc that finds the buffer full."
  },
  {
   "property": "C473",
   "status": "proved",
   "theorems": [
    "C473_variant",
    "C473_optional",
    "C473_expected",
    "C473_vector",
    "C473_length",
    "C473_two_ways",
    "C473_map",
    "C473_bipbuf",
    "C473_pool",
    "C473_aligned_storage",
    "C473_shared_ptr"
   ],
   "note": ""
  },
  {
   "property": "C474",
   "status": "proved",
   "theorems": [
    "C474_trivial",
    "C474_optional",
    "C474_expected",
    "C474_variant",
    "C474_vector_of_integers",
    "C474_vector",
    "C474_pool",
    "C474_aligned_storage",
    "C474_shared_ptr"
   ],
   "note": "the unrestricted statement is false: see C476 and C477."
  },
  {
   "property": "C475",
   "status": "proved",
   "theorems": [
    "C475_vector",
    "C475_map",
    "C475_at_the_start"
   ],
   "note": ""
  },
  {
   "property": "C476",
   "status": "partial",
   "theorems": [
    "C476_optional_refuted",
    "C476_expected_refuted",
    "C476_variant_refuted"
   ],
   "note": "false: the storage of values that are not all trivial is an array of bytes. An optional or expected of a class may be at any address; a variant is only as aligned as its std::size_t index. The true cases are in C474 and C475."
  },
  {
   "property": "C477",
   "status": "partial",
   "theorems": [
    "C477_vector_refuted",
    "C477_map_refuted",
    "C477_bipbuf_refuted",
    "C477_pool_refuted",
    "C477_shared_ptr_refuted"
   ],
   "note": "false: the elements live in arrays of bytes, so alignas inside the map's entry has no effect on the map itself; the pool is only as aligned as a pointer, the layer1::shared_ptr as its control block. Shown for every position and every type aligned more strictly than the container. The true cases are in C474 and C475."
  },
  {
   "property": "C478",
   "status": "partial",
   "theorems": [
    "C478_size_refuted",
    "C478_alignment_refuted"
   ],
   "note": "false: the member is byte data[Align]. A type larger than its alignment does not fit."
  },
  {
   "property": "C479",
   "status": "partial",
   "theorems": [
    "C479_same_block_refuted",
    "C479_used_block_refuted"
   ],
   "note": "false: the copy's list head and links point into the original. See C37 for one pool on its own."
  },
  {
   "property": "C480",
   "status": "proved",
   "theorems": [
    "C480_flash_append",
    "C480_flash_as_append",
    "C480_too_long",
    "C480_print"
   ],
   "note": "for texts and strings as named in the statement; texts that do not fit: C481"
  },
  {
   "property": "C481",
   "status": "partial",
   "theorems": [
    "C481_long_text_refuted"
   ],
   "note": "refuted: if the sum of the lengths leaves the range of size_type the capacity check passes and the text is copied beyond the storage; the assert holds for shorter texts (C28, through C480_flash_as_append)"
  },
  {
   "property": "C482",
   "status": "proved",
   "theorems": [
    "C482_gc_still",
    "C482_erase_last"
   ],
   "note": "the elements for which something has to move: C416"
  },
  {
   "property": "C483",
   "status": "proved",
   "theorems": [
    "C483_exchange",
    "C483_pair",
    "C483_make_pair",
    "C483_copy_and_move",
    "C483_assign",
    "C483_swap",
    "C483_get"
   ],
   "note": "what happens to temporaries: C484"
  },
  {
   "property": "C484",
   "status": "partial",
   "theorems": [
    "C484_pair_refuted",
    "C484_make_pair_refuted",
    "C484_assign_refuted",
    "C484_swap_refuted"
   ],
   "note": "refuted: the constructor's parameters are named, so they are lvalues in its initializers and both elements are copied. (A pair of types that cannot be copied cannot be made this way at all.) A pair has an assignment from a const pair only, so a temporary pair is copied too, and swap copies each element three times."
  },
  {
   "property": "C485",
   "status": "proved",
   "theorems": [
    "C485_length",
    "C485_literal",
    "C485_literals",
    "C485_to_finer",
    "C485_and_back",
    "C485_extremes",
    "C485_zero",
    "C485_reach"
   ],
   "note": "Beyond the range see C486."
  },
  {
   "property": "C486",
   "status": "partial",
   "theorems": [
    "C486_literal_refuted",
    "C486_to_finer_refuted",
    "C486_years_refuted"
   ],
   "note": "False: a literal above max() wraps to a negative duration, a conversion whose result does not fit is narrowed to another length, and years is 16 bits wide. The part that holds is C485."
  },
  {
   "property": "C487",
   "status": "proved",
   "theorems": [
    "C487_history",
    "C487_copies_apart",
    "C487_shared"
   ],
   "note": "Holders that forget, or refer to what is gone, are C488."
  },
  {
   "property": "C488",
   "status": "partial",
   "theorems": [
    "C488_evaporated_refuted",
    "C488_temporary_refuted",
    "C488_ended_refuted"
   ],
   "note": "False: an evaporated holder gives its constant, a reference_evaporator made with a temporary dangles at once, and a holder whose variable has ended is undefined to read or set. The part that holds is C487."
  },
  {
   "property": "C489",
   "status": "partial",
   "theorems": [
    "C489_answer_refuted"
   ],
   "note": "False of the code: sputc passes on what overflow answers, which is '*' for every character; the comment there quotes the contract of overflow, which leaves the value open, but that of sputc does not. Refuted for every character other than '*'. Companion of C49 and C471."
  }
 ]
}