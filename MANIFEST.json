{
 "claims": [
  {
   "property": "C01",
   "status": "proved",
   "theorems": [
    "C01_sign_roundtrip",
    "C01_sign_write",
    "C01_plain_digit_rewritten_refuted"
   ],
   "note": "All SIGN clauses, both overpunch conventions, any size. The refuted theorem records that a plain digit in the sign position of an EBCDIC-mode item is rewritten when read."
  },
  {
   "property": "C02",
   "status": "proved",
   "theorems": [
    "C02_fetch_exact",
    "C02_display_store"
   ],
   "note": "Hypothesis |v| < 10^2047 is the size of the run-time conversion buffer (see C08_huge_result_refuted)."
  },
  {
   "property": "C03",
   "status": "proved",
   "theorems": [
    "C02_fetch_exact",
    "C03_packed_store"
   ],
   "note": "Same buffer hypothesis."
  },
  {
   "property": "C04",
   "status": "proved",
   "theorems": [
    "C02_fetch_exact",
    "C04_binary_store",
    "C04_truncation_keeps_sign_refuted"
   ],
   "note": "The refuted theorem records that truncation on overflow loses the sign of a negative number."
  },
  {
   "property": "C05",
   "status": "proved",
   "theorems": [
    "C05_arithmetic_exact",
    "C05_power_exact",
    "C05_power_cut_refuted",
    "C05_add_subtract"
   ],
   "note": "Scale -128 is the NaN marker of the code; item scales are -63..36. C05_power_cut_refuted: exponents of 2^32 and more are cut to 32 bits."
  },
  {
   "property": "C06",
   "status": "proved",
   "theorems": [
    "C06_division",
    "C06_divide_by_zero",
    "C06_zero_divide_nan"
   ],
   "note": ""
  },
  {
   "property": "C07",
   "status": "proved",
   "theorems": [
    "C07_rounding",
    "C07_rounded_unique",
    "C02_display_store",
    "C03_packed_store"
   ],
   "note": ""
  },
  {
   "property": "C08",
   "status": "proved",
   "theorems": [
    "C08_size_error",
    "C05_add_subtract",
    "C08_huge_result_refuted"
   ],
   "note": "For results below 10^2047 in units of the receiving scale; above, the code overruns its buffer (refuted theorem)."
  },
  {
   "property": "C09",
   "status": "proved",
   "theorems": [
    "C09_divide_remainder",
    "C06_divide_by_zero"
   ],
   "note": ""
  },
  {
   "property": "C10",
   "status": "proved",
   "theorems": [
    "C10_compare",
    "C10_compare_int",
    "C10_total_preorder"
   ],
   "note": ""
  },
  {
   "property": "C11",
   "status": "proved",
   "theorems": [
    "C11_cmp_packed_any_history",
    "C11_history_independent",
    "C11_inline_compare",
    "C11_negative_zero_refuted"
   ],
   "note": "Every history of calls of the caching routine, and the inline routine for short items. The refuted theorem shows why negative zero is excluded."
  },
  {
   "property": "C12",
   "status": "proved",
   "theorems": [
    "C12_cmp_unsigned",
    "C12_cmp_signed",
    "C12_inline_value"
   ],
   "note": "int (w=32) and long long (w=64) variants; both overpunch conventions."
  },
  {
   "property": "C13",
   "status": "proved",
   "theorems": [
    "C13_add_packed",
    "C13_add_packed_exact",
    "C13_inline_add",
    "C13_large_addend_refuted",
    "C13_inline_overflow_refuted"
   ],
   "note": "The refuted theorems show that larger addends give a wrong sign and that the inline version corrupts the unused nibble on overflow."
  },
  {
   "property": "C14",
   "status": "proved",
   "theorems": [
    "C14_add_display",
    "C14_add_int_dispatch",
    "C14_crossing_zero_refuted"
   ],
   "note": "The refuted theorem shows that an overflow crossing zero is not reported."
  },
  {
   "property": "C15",
   "status": "proved",
   "theorems": [
    "C15_display_move",
    "C15_positions"
   ],
   "note": ""
  },
  {
   "property": "C16",
   "status": "proved",
   "theorems": [
    "C16_display_to_packed",
    "C16_packed_to_display",
    "C16_packed_to_packed",
    "C16_roundtrip",
    "C16_scaled_sender_refuted"
   ],
   "note": "COMP-3 items of up to 64 digits. The refuted theorem: a DISPLAY sender with trailing P positions is read beyond its end."
  },
  {
   "property": "C17",
   "status": "proved",
   "theorems": [
    "C17_to_binary",
    "C17_from_binary",
    "C16_roundtrip",
    "C17_small_fraction_refuted"
   ],
   "note": "binary_receivable states when the code's 64-bit arithmetic suffices; the refuted theorem shows what happens for senders with more decimals than digits."
  },
  {
   "property": "C18",
   "status": "proved",
   "theorems": [
    "C18_text_move",
    "C18_positions",
    "C18_number_to_text",
    "C18_number_justified_refuted"
   ],
   "note": "The refuted theorem: JUSTIFIED is ignored for numeric senders."
  },
  {
   "property": "C19",
   "status": "proved",
   "theorems": [
    "C19_text_to_display",
    "C19_text_to_numeric",
    "C19_garbage_is_zero",
    "C19_trailing_garbage_refuted",
    "C19_small_receiver_refuted"
   ],
   "note": "Foreign characters are noticed exactly in the part of the text that supplies digits; the refuted theorems show the limits."
  },
  {
   "property": "C52",
   "status": "proved",
   "theorems": [
    "C52_get_int",
    "C52_get_long_long",
    "C52_set_int",
    "C52_set_get",
    "C52_scaled_binary_refuted"
   ],
   "note": "Binary items: integer items only, the refuted theorem shows that the scale of a binary item is ignored."
  },
  {
   "property": "C20",
   "status": "proved",
   "theorems": [
    "C20_edit",
    "C20_edit_text",
    "C20_deedit",
    "C20_reedit",
    "C20_roundtrip",
    "C20_size",
    "C20_digits",
    "C20_fixed_sign_floats_refuted",
    "C20_overflow_suppression_refuted",
    "C20_DB_sign_lost_refuted",
    "C20_dropped_digit_matters_refuted",
    "C20_trailing_sign_lost_refuted"
   ],
   "note": "Pictures of 9 Z * + - currency , B 0 / . V CR DB (no P); `editable` states the accepted shapes, the refuted theorems show why the excluded ones are excluded."
  },
  {
   "property": "C21",
   "status": "proved",
   "theorems": [
    "C21_text_compare",
    "C21_total_preorder",
    "C21_number_with_text",
    "C21_group",
    "C21_compare_writes_refuted"
   ],
   "note": "Alphanumeric, edited, group and numeric-with-text comparison (cob_cmp); the refuted theorem shows the write to a signed DISPLAY item with a space in its sign position."
  },
  {
   "property": "C22",
   "status": "proved",
   "theorems": [
    "C22_alphabetic",
    "C22_numeric_digits",
    "C22_numeric_valid",
    "C22_numeric_signed",
    "C22_numeric_packed",
    "C22_numeric_side_effect_refuted"
   ],
   "note": "Exact for the C locale; the side-effect-freedom half fails for invalid sign positions (refuted theorem)."
  },
  {
   "property": "C23",
   "status": "proved",
   "theorems": [
    "C23_key_order",
    "C23_total_preorder"
   ],
   "note": "Numeric and text keys, ascending and descending; national keys excluded (see C49)."
  },
  {
   "property": "C49",
   "status": "proved",
   "theorems": [
    "C49_utf8",
    "C49_utf8_order",
    "C49_order_strict",
    "C49_utf8_ends_refuted",
    "C49_utf8_lengths_refuted",
    "C49_sjis",
    "C49_sjis_equal_sizes",
    "C49_not_an_order_refuted"
   ],
   "note": "Both operands national; a national item compared with an alphanumeric one is not modelled. memcmp is modelled by the sign of its result."
  },
  {
   "property": "C51",
   "status": "proved",
   "theorems": [
    "C51_move_all",
    "C51_move_all_numeric",
    "C51_move_zero",
    "C51_compare_all",
    "C51_compare_all_all",
    "C51_compare_zero"
   ],
   "note": "MOVE ALL and comparison with ALL literals and ZERO."
  },
  {
   "property": "C25",
   "status": "proved",
   "theorems": [
    "C25_tallying",
    "C25_counters",
    "C25_leading",
    "C25_trailing",
    "C25_comparison_cycle_refuted",
    "C25_numeric_before_refuted"
   ],
   "note": "Any list of phrases with BEFORE/AFTER regions. The phrases are processed one after the other over the whole region; the first refuted theorem shows that this is not the comparison cycle of the COBOL standard, the second that a numeric BEFORE operand overruns a buffer. National items not modelled."
  },
  {
   "property": "C26",
   "status": "proved",
   "theorems": [
    "C26_replacing"
   ],
   "note": "Any list of phrases, any region; figurative constants and ALL literals included."
  },
  {
   "property": "C27",
   "status": "proved",
   "theorems": [
    "C27_converting"
   ],
   "note": "Single-byte conversion (Shift-JIS build, non-national operands)."
  },
  {
   "property": "C28",
   "status": "proved",
   "theorems": [
    "C28_string",
    "C28_positions",
    "C28_pointer"
   ],
   "note": "Any number of senders and delimiters, any pointer value above INT_MIN, non-national operands that do not overlap."
  },
  {
   "property": "C29",
   "status": "proved",
   "theorems": [
    "C29_unstring",
    "C29_pointer_range",
    "C29_partition",
    "C29_receiver",
    "C29_delimiter_count"
   ],
   "note": "Any list of non-empty delimiters with or without ALL; pieces are shown unique. Non-national operands that do not overlap; an empty ALL delimiter is an endless loop in the code and is excluded."
  },
  {
   "property": "C36",
   "status": "proved",
   "theorems": [
    "C36_and",
    "C36_or",
    "C36_nor",
    "C36_xor",
    "C36_imp",
    "C36_nimp",
    "C36_eq",
    "C36_not",
    "C36_case"
   ],
   "note": "Operands anywhere in storage, identical or overlapping with the target first (the byte-by-byte loops propagate changes when the source starts before an overlapping target)."
  },
  {
   "property": "C37",
   "status": "proved",
   "theorems": [
    "C37_unpack",
    "C37_pack",
    "C37_unpack_pack",
    "C37_pack_unpack",
    "C37_switches"
   ],
   "note": "X\"F4\", X\"F5\"; also the switch functions of X\"91\"."
  },
  {
   "property": "C38",
   "status": "proved",
   "theorems": [
    "C38_justify",
    "C38_blank",
    "C38_every_item"
   ],
   "note": "All items and directions."
  },
  {
   "property": "C39",
   "status": "proved",
   "theorems": [
    "C39_free",
    "C39_free_null",
    "C39_ledger",
    "C39_allocate"
   ],
   "note": "All histories of ALLOCATE and FREE over any heap; malloc is any allocator that returns no block in use."
  },
  {
   "property": "C40",
   "status": "partial",
   "theorems": [
    "C40_handlers_partial",
    "C40_remove_refuted"
   ],
   "note": "True when only the latest handler is removed or installed again; false otherwise: the node in front of the removed one is released while still linked (use after free)."
  },
  {
   "property": "C41",
   "status": "proved",
   "theorems": [
    "C41_subscript",
    "C41_never_undefined",
    "C41_level",
    "C41_ref_mod",
    "C41_ref_mod_overflow_refuted",
    "C41_ref_mod_national",
    "C41_inside",
    "C41_elements_apart"
   ],
   "note": "Subscripts, OCCURS DEPENDING ON, reference modification; addresses computed as in the generated code, on every layout. The sum offset+length above INT_MAX is undefined in the check itself (refuted theorem). Items behind a variable-length table not modelled."
  },
  {
   "property": "C54",
   "status": "proved",
   "theorems": [
    "C54_layout",
    "C54_aligned",
    "C54_contiguous",
    "C54_sync_group_refuted",
    "C54_redefines_gap_refuted"
   ],
   "note": "All data description trees without level 66; excluded, and refuted by example: SYNC on a group with a binary USAGE."
  },
  {
   "property": "C55",
   "status": "proved",
   "theorems": [
    "C55_binary",
    "C55_comp_x",
    "C55_comp_x_signed_refuted",
    "C55_packed_display"
   ],
   "note": "Unsigned COMP-X; signed COMP-X is refuted (PIC S9(7) COMP-X has 3 bytes)."
  },
  {
   "property": "C42",
   "status": "proved",
   "theorems": [
    "C42_calendar",
    "C42_last_day",
    "C42_date_of_integer",
    "C42_date_of_integer_invalid",
    "C42_integer_of_date",
    "C42_integer_of_date_invalid",
    "C42_test_date",
    "C42_roundtrip",
    "C42_roundtrip_back",
    "C42_day_calendar",
    "C42_day_of_integer",
    "C42_day_of_integer_invalid",
    "C42_integer_of_day",
    "C42_integer_of_day_invalid",
    "C42_test_day",
    "C42_day_roundtrip",
    "C42_day_roundtrip_back"
   ],
   "note": "for all argument items (DISPLAY, COMP-3, binary) and all day numbers/dates; the calendar is specified by next-day steps from 1601-01-01"
  },
  {
   "property": "C48",
   "status": "proved",
   "theorems": [
    "C48_year_to_yyyy",
    "C48_year_to_yyyy_invalid",
    "C48_date_to_yyyymmdd",
    "C48_day_to_yyyyddd",
    "C48_four_digit_year_refuted"
   ],
   "note": "window proved; finding: DATE-TO-YYYYMMDD does not reject four-digit years"
  },
  {
   "property": "C43",
   "status": "proved",
   "theorems": [
    "C43_integer",
    "C43_integer_refuted",
    "C43_integer_part",
    "C43_fraction_part",
    "C43_fraction_part_refuted",
    "C43_mod",
    "C43_mod_refuted",
    "C43_rem"
   ],
   "note": "INTEGER is the floor except for negative numbers with two or more decimals whose first decimal is 0 (refuted: INTEGER(-1.005) = -1, MOD(-101,100) = -1); FRACTION-PART of numbers above 9.2 overflows (refuted)."
  },
  {
   "property": "C47",
   "status": "proved",
   "theorems": [
    "C47_text",
    "C47_numeric",
    "C47_ord",
    "C47_ord_one_refuted"
   ],
   "note": "All-text and all-numeric argument lists; ORD-MIN/ORD-MAX of one argument give 0 (refuted)."
  },
  {
   "property": "C56",
   "status": "proved",
   "theorems": [
    "C56_expression",
    "C56_quotient",
    "C56_nested_quotients_refuted"
   ],
   "note": "As long as the scale of the result fits a signed char; four nested divisions exceed it (refuted)."
  },
  {
   "property": "C57",
   "status": "proved",
   "theorems": [
    "C57_sum",
    "C57_abs",
    "C57_sign",
    "C57_factorial"
   ],
   "note": ""
  },
  {
   "property": "C58",
   "status": "proved",
   "theorems": [
    "C58_results_kept",
    "C58_ninth_refuted"
   ],
   "note": "Up to eight results; a ninth overwrites the first (refuted)."
  },
  {
   "property": "C44",
   "status": "proved",
   "theorems": [
    "C44_ref_mod",
    "C44_ref_mod_outside_refuted",
    "C44_case",
    "C44_reverse",
    "C44_concatenate",
    "C44_trim",
    "C44_trim_spaces",
    "C44_trim_every_text",
    "C44_ord_char",
    "C44_char_ord",
    "C44_length",
    "C44_stored_length"
   ],
   "note": ""
  },
  {
   "property": "C45",
   "status": "proved",
   "theorems": [
    "C45_substitute",
    "C45_substitute_case",
    "C45_deterministic",
    "C45_empty_pattern_refuted",
    "C45_case_nul_refuted"
   ],
   "note": "An empty pattern (and a NUL first byte in the case-insensitive form) is outside the specification and is refuted with a witness."
  },
  {
   "property": "C46",
   "status": "proved",
   "theorems": [
    "C46_numval",
    "C46_numval_c",
    "C46_crdb_refuted"
   ],
   "note": "Texts of at most 18 digits; longer ones go through sscanf/floating point, which is not modelled. CR/DB is refuted: it depends on the byte after the item."
  },
  {
   "property": "C30",
   "status": "proved",
   "theorems": [
    "C30_history",
    "C30_rewrite_absent_refuted",
    "C30_delete_absent_refuted",
    "C30_rewrite_length_refuted",
    "C30_zero_length_refuted"
   ],
   "note": "Every history of OPEN, CLOSE, WRITE, READ, REWRITE, DELETE by number. Four deviations of the code from the map semantics are stated as _refuted theorems with witnesses (status 00 for REWRITE/DELETE of an absent record below the highest number, the length kept by REWRITE, records of length 0)."
  },
  {
   "property": "C31",
   "status": "proved",
   "theorems": [
    "C31_scan",
    "C31_dynamic",
    "C31_sequential_write",
    "C31_write_moves_refuted",
    "C31_key_after_open_refuted"
   ],
   "note": ""
  },
  {
   "property": "C32",
   "status": "proved",
   "theorems": [
    "C32_start",
    "C32_beyond_refuted",
    "C32_zero_refuted",
    "C32_key_after_start_refuted",
    "C32_delete_after_start_refuted",
    "C32_after_failure_refuted"
   ],
   "note": "EQ and GT unconditionally; GE for numbers >= 1; LE/LT when a record at or beyond the number exists; the remaining cases are refuted with witnesses."
  },
  {
   "property": "C34",
   "status": "proved",
   "theorems": [
    "C34_history",
    "C34_cycle",
    "C34_prefix_refuted",
    "C34_zero_refuted",
    "C34_longer_record_refuted"
   ],
   "note": "Every history of OPEN, CLOSE, READ, WRITE, REWRITE, for all record prefix formats; a 65536-byte record with a two byte prefix, a record of length 0 and the longer-record REWRITE are refuted with witnesses."
  },
  {
   "property": "C33",
   "status": "proved",
   "theorems": [
    "C33_history",
    "C33_cycle",
    "C33_control_refuted",
    "C33_after_refuted",
    "C33_refused_refuted"
   ],
   "note": "Every history of OPEN, CLOSE, READ, WRITE for plain WRITE; without COB_LS_NULLS the records contain no LF/CR (refuted otherwise); WRITE AFTER ADVANCING is refuted."
  },
  {
   "property": "C35",
   "status": "proved",
   "theorems": [
    "C35_refused",
    "C35_only",
    "C35_after_end",
    "C35_lock_refuted",
    "C35_lock_start_refuted",
    "C35_closed_at_end_refuted",
    "C35_optional_refuted",
    "C35_optional_write_refuted"
   ],
   "note": "Sequential, line sequential and relative organization, every access mode, every history (INDEXED files are not modelled). The departures - statements on a file closed WITH LOCK, READ of a closed file whose end had been reached, missing OPTIONAL files - are excluded by name and refuted with witnesses."
  },
  {
   "property": "C24",
   "status": "proved",
   "theorems": [
    "C24_history",
    "C24_cycle",
    "C24_permutation",
    "C24_sorted",
    "C24_length_refuted",
    "C24_big_record_refuted"
   ],
   "note": "Every history of RELEASE and RETURN, in memory and through the work files at byte level, for all keys and all memory sizes with room for four records; smaller memory (undefined behaviour) and the length item of spilled records are refuted. SORT ... USING / GIVING: see C76."
  },
  {
   "property": "C50",
   "status": "proved",
   "theorems": [
    "C50_compare",
    "C50_add",
    "C50_sub",
    "C50_add_exact",
    "C50_set",
    "C50_overflow_refuted"
   ],
   "note": "All widths, byte orders, signs and values; 128 C functions are instances of the modelled templates (tools/check_codegen.py compares the text). Addition and subtraction wrap modulo 2^width unless the C arithmetic itself overflows (undefined, refuted)."
  },
  {
   "property": "C53",
   "status": "proved",
   "theorems": [
    "C53_session",
    "C53_open_invalid",
    "C53_counter",
    "C53_after_page_refuted",
    "C53_zero_lines_refuted",
    "C53_too_many_lines_refuted",
    "C53_stale_eop_refuted"
   ],
   "note": "All sessions of one OPEN OUTPUT, ADVANCING 1-65535 LINES or PAGE. Refuted: AFTER PAGE prints above the new page; 0 LINES still moves; 65536 LINES means PAGE; the end-of-page mark leaks to another file."
  },
  {
   "property": "C59",
   "status": "proved",
   "theorems": [
    "C59_spelling",
    "C59_attributes",
    "C59_category",
    "C59_numeric",
    "C59_scaled_up",
    "C59_scaled_down",
    "C59_edited",
    "C59_count_overflow_refuted",
    "C59_count_undefined_refuted",
    "C59_float_scale_refuted",
    "C59_scale_wraps_refuted",
    "C59_CCR_refuted",
    "C59_S_alone_refuted"
   ],
   "note": "All PICTURE strings of up to 50 characters without N, all counts up to INT_MAX. Refuted: 9(9999999999) declares size -1; $$$.$$ gets scale 0; Z.9(140) gets scale -116; 9CCR and S are accepted."
  },
  {
   "property": "C60",
   "status": "proved",
   "theorems": [
    "C60_store",
    "C60_undefined",
    "C60_giving",
    "C60_declared",
    "C60_pending_refuted",
    "C60_float_decimals_refuted",
    "C60_buffer_overrun_refuted"
   ],
   "note": "All pictures of C20 with 1 to 64 digits, all decimals below 10^2047. Refuted: $$$.$$ loses its decimals (scale 0 from cobc); Z(70) overruns a 64-byte buffer; the return value reports an earlier exception."
  },
  {
   "property": "C61",
   "status": "proved",
   "theorems": [
    "C61_statement",
    "C61_compute",
    "C61_exact",
    "C61_operand_reread_refuted",
    "C61_scaled_binary_refuted",
    "C61_scaled_display_refuted",
    "C61_scale_marker_refuted"
   ],
   "note": "Receivers distinct; operands with trailing P positions must be longer than an int (or DISPLAY within int range), exponents whole and below 2^32, scales above -128; the option-0 integer forms of ADD/SUBTRACT are C11-C14 and C50. Refuted: ADD A TO A, B re-reads A; small binary items with P positions are read unscaled; PIC 9(5)P(6) overflows an int; a scale of exactly -128 is taken for an undefined result."
  },
  {
   "property": "C62",
   "status": "proved",
   "theorems": [
    "C62_arithmetic",
    "C62_condition",
    "C62_unambiguous",
    "C62_compute",
    "C62_not_zero_refuted",
    "C62_double_not_refuted",
    "C62_abort_refuted"
   ],
   "note": "The grammar of SpecExpr.v leaves out, after NOT, conditions that start with ZERO or contain a NOT of their own: the refutations show them misread or rejected. The class test of a parenthesised operand, pointers and the lexical level are not covered."
  },
  {
   "property": "C63",
   "status": "proved",
   "theorems": [
    "C63_truth",
    "C63_exact",
    "C63_independent",
    "C63_sentence",
    "C63_literals_refuted",
    "C63_division_by_zero_refuted",
    "C63_third_refuted",
    "C63_negative_zero_refuted"
   ],
   "note": "Operands hold numbers; divisors are not zero; packed operands have at most 38 digits, hold no negative zero and are not compared with an item holding -2^31; not two literals. Numbers compared with texts (C21), indexes, pointers and class-names are not covered. Refuted: two literals of equal length are compared without sign and point, division by zero yields a comparison, 1/3*3 = 1 is false, a negative zero packed item is below zero."
  },
  {
   "property": "C64",
   "status": "proved",
   "theorems": [
    "C64_search_all",
    "C64_search_all_min",
    "C64_search_serial",
    "C64_varying",
    "C64_varying_refuted",
    "C64_occurs_min_refuted",
    "C64_occurs_zero_refuted",
    "C64_same_key_refuted",
    "C64_index_refuted"
   ],
   "note": "Keys and values are compared as in C63 and contain no quotient. Refuted: with OCCURS m TO n the entries below m are never found, with m = 0 storage in front of the table is read; of two equations for one key only the last counts; comparing a key with an index leaves the direction undefined; a VARYING item is overwritten with the index instead of counted up."
  },
  {
   "property": "C65",
   "status": "proved",
   "theorems": [
    "C65_control",
    "C65_one_result",
    "C65_iff",
    "C65_times",
    "C65_thru",
    "C65_exit_paragraph",
    "C65_exit_section",
    "C65_perform_section",
    "C65_varying",
    "C65_recursive_times_refuted",
    "C65_depth_refuted"
   ],
   "note": "Statements, conditions and counts are arbitrary functions of the state. Refuted: a PERFORM n TIMES that is reached again while it is being executed shares its counter with itself; nesting 255 deep writes beyond the frame stack without -fstack-check."
  },
  {
   "property": "C66",
   "status": "proved",
   "theorems": [
    "C66_evaluate",
    "C66_one",
    "C66_exact",
    "C66_not_refuted"
   ],
   "note": "At most 64 objects before the same statements. Operands are compared as in C63. Refuted: in the second and later WHEN phrases of a group, a leading NOT of a condition (subject TRUE or FALSE) is applied to all of the condition."
  },
  {
   "property": "C67",
   "status": "proved",
   "theorems": [
    "C67_initialize",
    "C67_laid_out",
    "C67_start",
    "C67_start_table",
    "C67_zero_display",
    "C67_zero_binary",
    "C67_category_value_refuted",
    "C67_filler_value_refuted",
    "C67_with_filler_refuted",
    "C67_start_table_refuted"
   ],
   "note": "The bytes a generated MOVE leaves are a parameter (MOVE is C15-C19, C27). CHAINING, EXTERNAL and reference modification are not modelled. The hypotheses of C67_initialize and C67_start_table exclude exactly the situations refuted."
  },
  {
   "property": "C68",
   "status": "proved",
   "theorems": [
    "C68_display",
    "C68_plain",
    "C68_binary",
    "C68_text",
    "C68_statement",
    "C68_comp5_scale_refuted",
    "C68_overflow_refuted"
   ],
   "note": "COMP-1/COMP-2 and POINTER items are not modelled; nor is the choice of stdout and stderr. Numbers are those within the picture (C68_overflow_refuted shows why)."
  },
  {
   "property": "C69",
   "status": "proved",
   "theorems": [
    "C69_indexed_total",
    "C69_indexed_order",
    "C69_indexed_frame",
    "C69_indexed_open",
    "C69_indexed_close",
    "C69_indexed_write",
    "C69_indexed_last_key",
    "C69_indexed_read_key",
    "C69_indexed_start",
    "C69_indexed_next",
    "C69_indexed_delete_next",
    "C69_indexed_end",
    "C69_indexed_scan",
    "C69_indexed_scan_from",
    "C69_indexed_delete",
    "C69_indexed_delete_sequential",
    "C69_indexed_not_read",
    "C69_indexed_rewrite",
    "C69_indexed_rewrite_sequential",
    "C69_indexed_seq_rewrite_refuted",
    "C69_indexed_seq_rewrite_undefined_refuted",
    "C69_indexed_seq_rewrite_key_refuted",
    "C69_indexed_rewrite_length_refuted",
    "C69_indexed_rewrite_after_44_refuted",
    "C69_indexed_first_refuted",
    "C69_indexed_new_duplicate_refuted",
    "C69_indexed_start_le_partial_refuted",
    "C69_indexed_locked_refuted",
    "C69_indexed_extend_order_refuted",
    "C69_indexed_failed_read_refuted"
   ],
   "note": "Berkeley DB is modelled by what it documents for B-trees (sorted entries, get/put/cursor operations); no environment, so no record locks; errors of the medium are not modelled; duplicate numbers do not wrap around. States after a WRITE refused with 44, START LESS OR EQUAL with part of a key and sequential REWRITE with a unique alternate key or a changed RECORD KEY are excluded from the positive theorems and refuted separately."
  },
  {
   "property": "C70",
   "status": "proved",
   "theorems": [
    "C70_replacement_determined",
    "C70_replace_stream",
    "C70_replace_flush",
    "C70_replace_one_word",
    "C70_whole_source",
    "C70_plain_copy_inline",
    "C70_copy_replacing_exact",
    "C70_blanks_kept_refuted",
    "C70_empty_pattern_ends_refuted",
    "C70_end_of_source_refuted",
    "C70_end_of_copy_refuted",
    "C70_nested_replacing_refuted",
    "C70_trailing_order_refuted",
    "C70_leading_replace_refuted",
    "C70_replace_scope_refuted"
   ],
   "note": "The model starts from the texts the flex rules deliver and the events of the grammar; JOINING, COBOL68 style COPY and the line markers are not modelled. For whole sources: the patterns of one REPLACING phrase have the same number of words and are not LEADING or TRAILING, two COPY statements have a text between them, and each section ends with a word that is in none of its patterns; what happens otherwise is refuted separately. Blanks before a replaced word may be lost for patterns of several words (refuted), so those theorems allow it."
  },
  {
   "property": "C71",
   "status": "proved",
   "theorems": [
    "C71_call_cancel",
    "C71_calm_run",
    "C71_cancel_resets",
    "C71_storage_kept",
    "C71_cancel_others",
    "C71_entry_points_distinct",
    "C71_name_padding",
    "C71_cancel_all_ends",
    "C71_alias_refuted",
    "C71_cancel_by_called_name_refuted",
    "C71_cancel_all_hyphen_refuted",
    "C71_cancel_all_third_refuted",
    "C71_cancel_active_refuted",
    "C71_cancel_close_refuted",
    "C71_recursive_module_refuted",
    "C71_long_name_refuted",
    "C71_literal_space_refuted"
   ],
   "note": "Parameters, LOCAL-STORAGE, EXTERNAL items, ENTRY, PROGRAM-ID AS and the search for module files are not modelled: a program can be found or it cannot. Names are free of underscores (or those of library routines); what happens otherwise is refuted. The order of evaluation in call.c 748, 756, 770, which C leaves open, is taken as gcc compiles it."
  },
  {
   "property": "C72",
   "status": "proved",
   "theorems": [
    "C72_fixed_source_text",
    "C72_fixed_line_numbers",
    "C72_fixed_margins",
    "C72_literal_continuation",
    "C72_word_continuation",
    "C72_inline_comments",
    "C72_blank_continuation_refuted",
    "C72_long_comment_refuted",
    "C72_inline_in_literal_refuted",
    "C72_text_column_refuted",
    "C72_many_comments_refuted"
   ],
   "note": "Lines with $ or >> directives, NUL bytes and the comment paragraphs of the IDENTIFICATION DIVISION are not modelled. A closing delimiter in column 72 followed by a continuation must be doubled there (as the code demands)."
  },
  {
   "property": "C73",
   "status": "proved",
   "theorems": [
    "C73_conditional_compilation",
    "C73_unbalanced",
    "C73_too_deep",
    "C73_line_numbers_refuted",
    "C73_missing_end_refuted",
    "C73_left_out_error_refuted",
    "C73_debug_line_refuted",
    "C73_blank_in_literal_refuted"
   ],
   "note": "Fixed format only: directives that switch to free format are not modelled, nor is a COPY inside a block. That the line numbers are wrong after directives is why the theorem speaks of the lines of the text that are not empty."
  },
  {
   "property": "C74",
   "status": "proved",
   "theorems": [
    "C74_accepted",
    "C74_hierarchy",
    "C74_reference",
    "C74_procedure",
    "C74_numeric_section_refuted"
   ],
   "note": "Levels 66 and 78, GLOBAL names of containing programs, INDEXED BY names and -frelax-level-hierarchy are not modelled. Names are compared as words: lookup_word gives all spellings of a name one word."
  },
  {
   "property": "C75",
   "status": "proved",
   "theorems": [
    "C75_move_corresponding",
    "C75_arith_corresponding",
    "C75_filler_refuted",
    "C75_add_group_refuted"
   ],
   "note": "The pairs are proved; the move or addition made for each is the subject of other properties. Level 66 items are not modelled (they are skipped as they count as REDEFINES)."
  },
  {
   "property": "C76",
   "status": "proved",
   "theorems": [
    "C76_sort_statement",
    "C76_contents",
    "C76_in_place_refuted",
    "C76_lengths_refuted"
   ],
   "note": "For GIVING files whose records all have one size (fixed SEQUENTIAL, LINE SEQUENTIAL); variable-length GIVING files are refuted with witnesses. RELATIVE and INDEXED files, printer files and sort files with a DEPENDING item are not covered."
  },
  {
   "property": "C77",
   "status": "proved",
   "theorems": [
    "C77_range",
    "C77_midrange",
    "C77_median_odd",
    "C77_median_even",
    "C77_mean",
    "C77_variance",
    "C77_variance_one",
    "C77_present_value",
    "C77_standard_deviation"
   ],
   "note": "MIDRANGE and the MEDIAN of an even number of arguments are proved up to the decimal that is converted to COMP-2: the conversion to floating point is not modelled. PRESENT-VALUE likewise; STANDARD-DEVIATION up to the number whose square root is taken."
  }
 ]
}