{"id": "C01", "title": "Sign of a DISPLAY item survives a write/read cycle", "statement": "For every signed zoned-decimal (DISPLAY) item, storing a sign and then reading it back yields the stored sign, and the digits observed while the sign is removed are exactly the digits that were there before; re-applying the sign that was read restores the item byte for byte. This holds for trailing/leading, separate/embedded signs, for the ASCII and the EBCDIC overpunch.", "quantifier": "all items of any size >= 1, all digit strings, both signs, all four SIGN clauses, both overpunch conventions", "why_tests_cant": "The claim ranges over unboundedly many field sizes, contents and scales; a test fixes finitely many.", "anchors": ["libcob/common.c: cob_real_get_sign, cob_real_put_sign, cob_get_sign_ebcdic, cob_put_sign_ebcdic, cob_get_sign_ascii, cob_put_sign_ascii"]}
{"id": "C02", "title": "DISPLAY store/fetch is exact", "statement": "If a number fits into the digits of a DISPLAY item, then storing it and reading the item as a number gives the same number; if it does not fit and no ON SIZE ERROR is given, the item holds the low-order digits with the sign of the number.", "quantifier": "all decimal values, all DISPLAY pictures (digits, scale, sign clause)", "why_tests_cant": "The claim ranges over unboundedly many field sizes, contents and scales; a test fixes finitely many.", "anchors": ["libcob/numeric.c: cob_decimal_set_display, cob_decimal_get_display"]}
{"id": "C03", "title": "PACKED-DECIMAL store/fetch is exact", "statement": "If a number fits into the digits of a COMP-3 item then storing and re-reading gives the same number; otherwise without SIZE ERROR the item keeps the low-order digits.", "quantifier": "all decimal values, all COMP-3 pictures", "why_tests_cant": "The claim ranges over unboundedly many field sizes, contents and scales; a test fixes finitely many.", "anchors": ["libcob/numeric.c: cob_decimal_set_packed, cob_decimal_get_packed"]}
{"id": "C04", "title": "Binary store/fetch is exact", "statement": "If a number lies in the range of a binary item (1 to 8 bytes, signed or unsigned, native or big-endian) and within its picture when truncation is on, storing and re-reading gives the same number.", "quantifier": "all integers, all byte widths 1..8, both byte orders, signed and unsigned", "why_tests_cant": "The claim ranges over unboundedly many field sizes, contents and scales; a test fixes finitely many.", "anchors": ["libcob/numeric.c: cob_binary_get_int64, cob_binary_get_uint64, cob_binary_set_int64, cob_binary_set_uint64, cob_decimal_set_binary, cob_decimal_get_binary"]}
{"id": "C05", "title": "ADD, SUBTRACT and MULTIPLY are exact", "statement": "The intermediate decimal arithmetic used by ADD, SUBTRACT, MULTIPLY and COMPUTE is exact rational arithmetic whatever the scales of the operands: no digit is lost or rounded.", "quantifier": "all pairs of decimals with arbitrary magnitudes and (positive or negative) scales", "why_tests_cant": "The claim ranges over unboundedly many field sizes, contents and scales; a test fixes finitely many.", "anchors": ["libcob/numeric.c: align_decimals, cob_decimal_add, cob_decimal_sub, cob_decimal_mul, shift_decimal"]}
{"id": "C06", "title": "DIVIDE truncates towards zero and never silently divides by zero", "statement": "Division yields a decimal whose distance to the exact quotient is less than one unit in the last carried place, never exceeds the quotient in magnitude, and carries at least 37 more fractional digits than needed; division by zero is reported as SIZE ERROR and leaves every receiving item unchanged.", "quantifier": "all dividends and divisors of arbitrary scale", "why_tests_cant": "The claim ranges over unboundedly many field sizes, contents and scales; a test fixes finitely many.", "anchors": ["libcob/numeric.c: cob_decimal_div, cob_decimal_get_field"]}
{"id": "C07", "title": "ROUNDED rounds half away from zero, otherwise truncation", "statement": "When a result has more fractional digits than the receiving item, the stored value is the result truncated towards zero; with ROUNDED it is the nearest representable value, ties going away from zero.", "quantifier": "all results, all receiving scales", "why_tests_cant": "The claim ranges over unboundedly many field sizes, contents and scales; a test fixes finitely many.", "anchors": ["libcob/numeric.c: cob_decimal_get_field, shift_decimal"]}
{"id": "C08", "title": "ON SIZE ERROR never modifies the receiving item", "statement": "If SIZE ERROR is requested and the (rounded) result does not fit the receiving item, the item keeps all its bytes and the size error condition is reported; if the result fits, no size error is reported and the item holds the result.", "quantifier": "all results, all DISPLAY/COMP-3/binary receiving items, all option combinations", "why_tests_cant": "The claim ranges over unboundedly many field sizes, contents and scales; a test fixes finitely many.", "anchors": ["libcob/numeric.c: cob_decimal_get_field, cob_decimal_get_display, cob_decimal_get_packed, cob_decimal_get_binary, cob_add, cob_sub"]}
{"id": "C09", "title": "DIVIDE ... REMAINDER satisfies the division identity", "statement": "After DIVIDE a BY b GIVING q REMAINDER r, the value computed for the remainder equals a - q*b where q is the quotient truncated to the picture of q; |remainder| < |b| in units of the last place of q.", "quantifier": "all dividends, divisors and pictures of q", "why_tests_cant": "The claim ranges over unboundedly many field sizes, contents and scales; a test fixes finitely many.", "anchors": ["libcob/numeric.c: cob_div_quotient, cob_div_remainder"]}
{"id": "C10", "title": "Numeric comparison is representation independent", "statement": "Comparing two numeric items of any usages, sizes and scales gives the sign of the exact difference of their values; hence the comparison is a total preorder, antisymmetric in value and transitive.", "quantifier": "all pairs/triples of numeric items", "why_tests_cant": "The claim ranges over unboundedly many field sizes, contents and scales; a test fixes finitely many.", "anchors": ["libcob/numeric.c: cob_numeric_cmp, cob_decimal_cmp, cob_cmp_int"]}
{"id": "C11", "title": "The fast COMP-3 versus integer comparison agrees with the general one", "statement": "Comparing an integral COMP-3 item (not holding a negative zero) with an integer through the optimised paths gives the sign of the difference of the values, whatever comparisons preceded it.", "quantifier": "all COMP-3 items, all integers, all previous calls (the routine caches its last integer)", "why_tests_cant": "The routine keeps static state between calls; the result must be independent of the whole history.", "anchors": ["libcob/numeric.c: cob_cmp_packed"]}
{"id": "C12", "title": "The fast DISPLAY versus integer comparisons agree with the general one", "statement": "The optimised comparisons between a DISPLAY item and an integer return the sign of the difference of the values.", "quantifier": "all digit strings, all 32-bit integers", "why_tests_cant": "The claim ranges over unboundedly many field sizes, contents and scales; a test fixes finitely many.", "anchors": ["libcob/numeric.c: cob_cmp_numdisp, cob_cmp_sign_numdisp, cob_cmp_long_numdisp, cob_cmp_long_sign_numdisp"]}
{"id": "C13", "title": "ADD/SUBTRACT of an integer to a COMP-3 item is arithmetic addition", "statement": "The optimised addition of an integer (smaller than the item's capacity) to a COMP-3 item leaves the item with the exact sum when it fits, and otherwise with the low-order digits of the sum and its sign.", "quantifier": "all item sizes, contents and addends", "why_tests_cant": "The claim ranges over unboundedly many field sizes, contents and scales; a test fixes finitely many.", "anchors": ["libcob/numeric.c: cob_add_packed, complement_packed"]}
{"id": "C14", "title": "ADD/SUBTRACT of an integer to a DISPLAY item is arithmetic addition", "statement": "The optimised addition of an integer to a DISPLAY item leaves the item with the exact sum when it fits; when item and addend have the same sign and the sum does not fit it raises the size exception and leaves the item unchanged (binary-truncate on); otherwise it keeps the low-order digits of the sum and its sign.", "quantifier": "all item sizes, contents and addends", "why_tests_cant": "The claim ranges over unboundedly many field sizes, contents and scales; a test fixes finitely many.", "anchors": ["libcob/numeric.c: display_add_int, display_sub_int, cob_display_add_int"]}
{"id": "C15", "title": "Numeric MOVE aligns on the decimal point", "statement": "MOVE between DISPLAY items stores at each decimal position of the receiver the sender's digit at that position, zero where the sender has none, drops digits outside the receiver, and keeps the sign if the receiver is signed.", "quantifier": "all sender/receiver pictures and contents", "why_tests_cant": "The claim ranges over unboundedly many field sizes, contents and scales; a test fixes finitely many.", "anchors": ["libcob/move.c: store_common_region, cob_move_display_to_display"]}
{"id": "C16", "title": "MOVE between DISPLAY and COMP-3 preserves the aligned value", "statement": "MOVE DISPLAY to COMP-3 and COMP-3 to DISPLAY store the sender's value aligned at the decimal point and truncated to the receiver; a value that fits survives the round trip.", "quantifier": "all pictures and contents", "why_tests_cant": "The claim ranges over unboundedly many field sizes, contents and scales; a test fixes finitely many.", "anchors": ["libcob/move.c: cob_move_display_to_packed, cob_move_packed_to_display"]}
{"id": "C17", "title": "MOVE between DISPLAY and binary preserves the aligned value", "statement": "MOVE of DISPLAY to a binary item and back stores the sender's value aligned at the decimal point, truncated to the digits of the receiver.", "quantifier": "all pictures and contents", "why_tests_cant": "The claim ranges over unboundedly many field sizes, contents and scales; a test fixes finitely many.", "anchors": ["libcob/move.c: cob_move_display_to_binary, cob_move_binary_to_display"]}
{"id": "C18", "title": "Alphanumeric MOVE pads, truncates and justifies exactly", "statement": "MOVE between alphanumeric items copies the sender left-justified with space padding or right truncation; with JUSTIFIED RIGHT it is right-justified with left padding or left truncation. Nothing beyond the receiver is written.", "quantifier": "all sizes and contents", "why_tests_cant": "The claim ranges over unboundedly many field sizes, contents and scales; a test fixes finitely many.", "anchors": ["libcob/move.c: cob_move_alphanum_to_alphanum, cob_move_display_to_alphanum"]}
{"id": "C19", "title": "MOVE of alphanumeric text to a numeric item stores the number written in the text", "statement": "Moving a text consisting of optional spaces, an optional sign, digits and at most one decimal point to a DISPLAY item stores that number aligned at the decimal point (likewise for COMP-3 and binary items up to 18+18 digits); a foreign character within the part of the text that supplies the receiver's digits makes the stored number zero.", "quantifier": "all texts and receiving pictures", "why_tests_cant": "The claim ranges over unboundedly many field sizes, contents and scales; a test fixes finitely many.", "anchors": ["libcob/move.c: cob_move_alphanum_to_display"]}
{"id": "C20", "title": "Numeric editing shows the number according to the picture", "statement": "MOVE to a numeric-edited item produces exactly one character per picture position; digit positions carry the aligned digits; leading zeros are replaced only by the suppression character; de-editing the result gives back the number when the picture has enough positions.", "quantifier": "all pictures built from 9 Z * . , and a sign, all values", "why_tests_cant": "The claim ranges over unboundedly many field sizes, contents and scales; a test fixes finitely many.", "anchors": ["libcob/move.c: cob_move_display_to_edited, cob_move_edited_to_display"]}
{"id": "C21", "title": "Alphanumeric comparison is space-padded collating order", "statement": "Comparing two alphanumeric items of any lengths gives the lexicographic order, under the program collating sequence if any, of the two contents padded with spaces to a common length; it is a total preorder.", "quantifier": "all contents, lengths and collating sequences", "why_tests_cant": "The claim ranges over unboundedly many field sizes, contents and scales; a test fixes finitely many.", "anchors": ["libcob/common.c: cob_cmp_alnum, cob_cmp_simple_str, common_cmpc, cob_cmp_char, cob_cmp_all, alnum_cmps"]}
{"id": "C22", "title": "Class conditions decide exactly the class and have no side effect", "statement": "IF x IS NUMERIC / ALPHABETIC / ALPHABETIC-UPPER / ALPHABETIC-LOWER is true exactly if the contents belong to the class, and evaluating the condition does not change the item.", "quantifier": "all items and contents", "why_tests_cant": "The claim ranges over unboundedly many field sizes, contents and scales; a test fixes finitely many.", "anchors": ["libcob/common.c: cob_is_numeric, cob_is_alpha, cob_is_upper, cob_is_lower"]}
{"id": "C23", "title": "The key comparator of SORT is a consistent total preorder", "statement": "For any list of ASCENDING/DESCENDING keys and any collating sequence the comparison used by SORT is reflexive, antisymmetric up to key equality and transitive, so sorting is well defined.", "quantifier": "all key lists, all triples of records", "why_tests_cant": "The claim ranges over unboundedly many field sizes, contents and scales; a test fixes finitely many.", "anchors": ["libcob/common.c: sort_compare", "libcob/fileio.c: sort_compare (cob_file_sort_compare)"]}
{"id": "C24", "title": "SORT of a file outputs a stable sorted permutation for every memory size", "statement": "SORT returns exactly the released records, each as often as it was released, in key order, records with equal keys in order of release - whatever the number of records and however much of it had to be spilled to work files.", "quantifier": "all release histories, all keys, all sort memory sizes", "why_tests_cant": "Run merging depends on how many times the memory limit is hit; the space of histories is unbounded.", "anchors": ["libcob/fileio.c: cob_sort_queues, cob_file_sort_process, cob_file_sort_submit, cob_file_sort_retrieve, cob_copy_check, cob_write_block"]}
{"id": "C25", "title": "INSPECT TALLYING counts non-overlapping occurrences in the delimited region", "statement": "INSPECT TALLYING adds to each counter exactly the number of matches found by a left to right scan in which earlier phrases win and characters matched by one phrase are not considered again, restricted to the BEFORE/AFTER region.", "quantifier": "all subjects, phrase lists and delimiters", "why_tests_cant": "The claim ranges over unboundedly many field sizes, contents and scales; a test fixes finitely many.", "anchors": ["libcob/strings.c: cob_inspect_init, cob_inspect_start, cob_inspect_before, cob_inspect_after, inspect_common, cob_inspect_characters"]}
{"id": "C26", "title": "INSPECT REPLACING changes exactly the matched characters", "statement": "INSPECT REPLACING replaces the matched occurrences and leaves every other character untouched; the length and, for signed items, the sign of the subject never change.", "quantifier": "all subjects, phrase lists and delimiters", "why_tests_cant": "The claim ranges over unboundedly many field sizes, contents and scales; a test fixes finitely many.", "anchors": ["libcob/strings.c: inspect_common, cob_inspect_finish"]}
{"id": "C27", "title": "INSPECT CONVERTING is a character-wise substitution", "statement": "INSPECT CONVERTING maps each character of the region by the first matching entry of the conversion table and leaves all other characters untouched; a second conversion phrase does not re-convert.", "quantifier": "all subjects, tables, regions", "why_tests_cant": "The claim ranges over unboundedly many field sizes, contents and scales; a test fixes finitely many.", "anchors": ["libcob/strings.c: cob_inspect_converting"]}
{"id": "C28", "title": "STRING appends delimited parts and never writes outside the receiver", "statement": "STRING writes the delimited prefixes of the senders one after the other from the pointer on, changes no other character, advances the pointer by the number of characters written, and raises OVERFLOW exactly if something did not fit or the pointer was out of range.", "quantifier": "all senders, delimiters, receivers, pointers", "why_tests_cant": "The claim ranges over unboundedly many field sizes, contents and scales; a test fixes finitely many.", "anchors": ["libcob/strings.c: cob_string_init, cob_string_delimited, cob_string_append, cob_string_finish"]}
{"id": "C29", "title": "UNSTRING partitions the sender", "statement": "UNSTRING assigns to the receivers the consecutive substrings of the sender between delimiters from the pointer on; substrings, delimiters and the unread rest concatenate to the sender; counts, delimiters, tally and pointer agree; OVERFLOW iff characters remain or the pointer is out of range.", "quantifier": "all senders, delimiter lists, pointers, numbers of receivers", "why_tests_cant": "The claim ranges over unboundedly many field sizes, contents and scales; a test fixes finitely many.", "anchors": ["libcob/strings.c: cob_unstring_init, cob_unstring_delimited, cob_unstring_into, cob_unstring_finish"]}
{"id": "C30", "title": "A RELATIVE file is a finite map from record numbers to records", "statement": "Random WRITE, READ, REWRITE and DELETE on a relative file return status 00 exactly when the map semantics says so (22 on duplicates, 23 on absent records) and READ returns the record last written under that number.", "quantifier": "all operation histories, record numbers and record contents", "why_tests_cant": "Any finite test fixes one history of operations.", "anchors": ["libcob/fileio.c: relative_read, relative_write, relative_rewrite, relative_delete"]}
{"id": "C31", "title": "Sequential READ of a RELATIVE file visits the existing records in ascending order", "statement": "READ NEXT visits each existing record exactly once, in ascending record number, skipping deleted or never written ones, and then returns status 10.", "quantifier": "all file contents", "why_tests_cant": "The claim ranges over unboundedly many field sizes, contents and scales; a test fixes finitely many.", "anchors": ["libcob/fileio.c: relative_read_next"]}
{"id": "C32", "title": "START on a RELATIVE file positions at the right record", "statement": "START KEY op n positions on the nearest existing record satisfying the relation, and returns 23 exactly when there is none.", "quantifier": "all file contents, all relations, all keys", "why_tests_cant": "The claim ranges over unboundedly many field sizes, contents and scales; a test fixes finitely many.", "anchors": ["libcob/fileio.c: relative_start"]}
{"id": "C33", "title": "LINE SEQUENTIAL records survive a write/read cycle", "statement": "Reading back a line sequential file gives the records written, trailing spaces aside, in the same number and order - for every record content allowed by the selected options.", "quantifier": "all sequences of records", "why_tests_cant": "The claim ranges over unboundedly many field sizes, contents and scales; a test fixes finitely many.", "anchors": ["libcob/fileio.c: lineseq_write, lineseq_read"]}
{"id": "C34", "title": "Variable-length SEQUENTIAL records survive a write/read cycle", "statement": "Reading back a sequential file of variable (or fixed) records gives exactly the records written with their lengths, followed by end of file, for each record prefix format.", "quantifier": "all sequences of records, all prefix formats", "why_tests_cant": "The claim ranges over unboundedly many field sizes, contents and scales; a test fixes finitely many.", "anchors": ["libcob/fileio.c: sequential_write, sequential_read, sequential_rewrite"]}
{"id": "C35", "title": "File status discipline", "statement": "READ/WRITE/REWRITE/DELETE/START/CLOSE/OPEN on a file in the wrong open mode return the prescribed status (41, 42, 43, 46, 47, 48, 49 ...) and have no effect on the file contents; READ after end of file returns 46 until the position is re-established.", "quantifier": "all operation histories", "why_tests_cant": "The property is about every history of file operations.", "anchors": ["libcob/fileio.c: cob_ex_open, cob_ex_close, cob_ex_read, cob_ex_write, cob_ex_rewrite, cob_ex_delete, cob_ex_start, save_status"]}
{"id": "C36", "title": "Logical byte routines implement their truth tables", "statement": "CBL_AND, CBL_OR, CBL_XOR, CBL_NOR, CBL_NIMP, CBL_IMP, CBL_EQ, CBL_NOT change exactly the first n bytes of the target to the bitwise function of source and target and nothing else.", "quantifier": "all lengths and contents", "why_tests_cant": "The claim ranges over unboundedly many field sizes, contents and scales; a test fixes finitely many.", "anchors": ["libcob/common.c: CBL_AND, CBL_OR, CBL_XOR, CBL_NOR, CBL_NIMP, CBL_NOT, CBL_IMP, CBL_EQ"]}
{"id": "C37", "title": "Bit pack/unpack routines are inverse", "statement": "Unpacking a byte to eight flag characters (X'F5') and packing it again (X'F4') gives the byte back, and conversely for all flag characters 0/1.", "quantifier": "all bytes, all flag strings", "why_tests_cant": "Exhausting one byte is testable; the general relation to bit positions is stated for all inputs including non-flag bytes.", "anchors": ["libcob/common.c: CBL_XF4, CBL_XF5"]}
{"id": "C38", "title": "C$JUSTIFY only moves blanks", "statement": "Justification (left, right, centre) keeps the sequence of the text without its leading and trailing spaces, the length of the item, and centres within one character.", "quantifier": "all contents", "why_tests_cant": "The claim ranges over unboundedly many field sizes, contents and scales; a test fixes finitely many.", "anchors": ["libcob/common.c: cob_acuw_justify"]}
{"id": "C39", "title": "ALLOCATE/FREE bookkeeping is sound", "statement": "FREE of an address obtained by ALLOCATE and not yet freed releases exactly that block; FREE of anything else releases nothing and reports an error; each block is released at most once.", "quantifier": "all histories of ALLOCATE and FREE", "why_tests_cant": "Unbounded histories.", "anchors": ["libcob/common.c: cob_allocate, cob_free_alloc"]}
{"id": "C40", "title": "Exit/error handlers: installing and removing are consistent", "statement": "Removing a handler leaves all other installed handlers installed and in order, and no released memory is used.", "quantifier": "all histories of install/remove", "why_tests_cant": "Unbounded histories.", "anchors": ["libcob/common.c: CBL_EXIT_PROC, CBL_ERROR_PROC"]}
{"id": "C41", "title": "Subscript and reference-modification checks are exact", "statement": "With checking on, a subscript, OCCURS DEPENDING ON value or reference modification passes iff the denoted bytes lie within the item; otherwise the run is stopped before any access.", "quantifier": "all offsets, lengths, bounds", "why_tests_cant": "The claim ranges over unboundedly many field sizes, contents and scales; a test fixes finitely many.", "anchors": ["libcob/common.c: cob_check_odo, cob_check_subscript, cob_check_ref_mod"]}
{"id": "C42", "title": "Date functions are inverse and respect the calendar", "statement": "INTEGER-OF-DATE and DATE-OF-INTEGER are inverse of each other on the valid dates 1601-01-01 .. 9999-12-31, strictly monotonic, and consecutive integers are consecutive calendar days; same for the day functions; TEST-DATE accepts exactly the valid dates.", "quantifier": "all dates and integers", "why_tests_cant": "Only a proof relates the loops to the Gregorian calendar for all of them.", "anchors": ["libcob/intrinsic.c: cob_intr_date_of_integer, cob_intr_integer_of_date, cob_intr_day_of_integer, cob_intr_integer_of_day, cob_intr_test_date_yyyymmdd, cob_intr_test_day_yyyyddd"]}
{"id": "C43", "title": "FUNCTION INTEGER is the floor", "statement": "FUNCTION INTEGER returns the greatest integer not greater than its argument; FUNCTION INTEGER-PART truncates; MOD and REM satisfy their defining identities.", "quantifier": "all arguments", "why_tests_cant": "The claim ranges over unboundedly many field sizes, contents and scales; a test fixes finitely many.", "anchors": ["libcob/intrinsic.c: cob_intr_integer, cob_intr_integer_part, cob_intr_mod, cob_intr_rem"]}
{"id": "C44", "title": "Text functions", "statement": "REVERSE is an involution, UPPER-CASE/LOWER-CASE are idempotent and length preserving, TRIM removes exactly the leading/trailing spaces, CONCATENATE concatenates, ORD and CHAR are inverse, and a reference modification on the result selects exactly the denoted characters.", "quantifier": "all texts", "why_tests_cant": "The claim ranges over unboundedly many field sizes, contents and scales; a test fixes finitely many.", "anchors": ["libcob/intrinsic.c: cob_intr_reverse, cob_intr_upper_case, cob_intr_lower_case, cob_intr_trim, cob_intr_concatenate, cob_intr_char, cob_intr_ord, calc_ref_mod"]}
{"id": "C45", "title": "FUNCTION SUBSTITUTE replaces leftmost non-overlapping occurrences", "statement": "SUBSTITUTE rewrites the text by scanning left to right replacing the first matching pattern; the buffer computed in the first pass is exactly large enough for the second pass.", "quantifier": "all texts and pattern lists", "why_tests_cant": "The claim ranges over unboundedly many field sizes, contents and scales; a test fixes finitely many.", "anchors": ["libcob/intrinsic.c: cob_intr_substitute, cob_intr_substitute_case"]}
{"id": "C46", "title": "FUNCTION NUMVAL reads the number written in the text", "statement": "For a text with at most 18 digits in the NUMVAL format the result is exactly that number.", "quantifier": "all texts", "why_tests_cant": "The claim ranges over unboundedly many field sizes, contents and scales; a test fixes finitely many.", "anchors": ["libcob/intrinsic.c: cob_intr_numval"]}
{"id": "C47", "title": "MIN, MAX, ORD-MIN, ORD-MAX", "statement": "MIN/MAX return an argument that is not greater/less than any other; ORD-MIN/ORD-MAX give the position of the first such argument.", "quantifier": "all argument lists", "why_tests_cant": "The claim ranges over unboundedly many field sizes, contents and scales; a test fixes finitely many.", "anchors": ["libcob/intrinsic.c: cob_intr_min, cob_intr_max, cob_intr_ord_min, cob_intr_ord_max"]}
{"id": "C48", "title": "Year windowing", "statement": "YEAR-TO-YYYY returns the unique year with the given last two digits in the 100-year window ending at the reference year plus interval.", "quantifier": "all years, intervals, reference years", "why_tests_cant": "The claim ranges over unboundedly many field sizes, contents and scales; a test fixes finitely many.", "anchors": ["libcob/intrinsic.c: cob_intr_year_to_yyyy"]}
{"id": "C49", "title": "National comparison is an order", "statement": "In the UTF-8 build two national items of the same size compare by the code points of their characters, which is a strict order: N1 < N2 iff N2 > N1, and equal only if equal; of texts of different lengths the first different character decides, and a text that continues another is greater unless it continues with blanks. Refuted: that this is an order for texts of different lengths; that the comparison ends for items that are not UTF-8 text (two items with X'FF' in the same place are compared forever); that the Shift-JIS build has an order (unequal items are equal, and each of two items is greater than the other: what it computes is proved instead).", "quantifier": "all national texts of any lengths in both builds", "why_tests_cant": "The claim ranges over unboundedly many field sizes, contents and scales; a test fixes finitely many.", "anchors": ["libcob/common.c: national_cmps, is_national_padding, cob_cmp_simple_str"]}
{"id": "C50", "title": "Optimised binary arithmetic agrees with the definition", "statement": "The width-specialised compare/add/subtract helpers on binary items in native or swapped byte order compute modulo 2^width and compare exactly.", "quantifier": "all widths, byte orders, values", "why_tests_cant": "The claim ranges over unboundedly many field sizes, contents and scales; a test fixes finitely many.", "anchors": ["libcob/codegen.h: cob_cmp_*_binary, cob_add_*_binary, cob_sub_*_binary, cob_cmpswp_*, cob_addswp_*, cob_subswp_*"]}
{"id": "C51", "title": "Figurative constants fill the receiver", "statement": "MOVE ALL literal / SPACES / ZEROS / HIGH-VALUES fills the receiver with the repeated literal, and comparing against ALL literal is comparing against the repetition.", "quantifier": "all receivers and literals", "why_tests_cant": "The claim ranges over unboundedly many field sizes, contents and scales; a test fixes finitely many.", "anchors": ["libcob/move.c: cob_move_all", "libcob/common.c: cob_cmp_all"]}
{"id": "C52", "title": "Integer access to any numeric item is consistent", "statement": "Reading an item as a machine integer gives the integer part of its value when representable; setting it from an integer and reading back gives the integer when it fits.", "quantifier": "all items and integers", "why_tests_cant": "The claim ranges over unboundedly many field sizes, contents and scales; a test fixes finitely many.", "anchors": ["libcob/move.c: cob_get_int, cob_set_int, cob_display_get_int, cob_packed_get_int, cob_binary_mget_int64"]}
{"id": "C53", "title": "LINAGE counter stays within the page", "statement": "Whatever the sequence of WRITE ... ADVANCING statements and changes of the LINAGE items, LINAGE-COUNTER stays between 1 and the page size, end of page is reported exactly when the footing is reached or the page is full, and every line is printed on the row of the page that the advancing phrases designate.", "quantifier": "all write histories", "why_tests_cant": "Unbounded histories.", "anchors": ["libcob/fileio.c: file_linage_check, cob_file_open, cob_linage_write_opt, lineseq_write", "cobc/typeck.c: cb_emit_write"]}
{"id": "C54", "title": "Storage layout: no two items share bytes unless one redefines the other", "statement": "Every subordinate item, with all its occurrences, lies within its group; items of a group that do not redefine a common item occupy disjoint storage in the order of description; a redefinition starts where the redefined item starts; SYNC items are aligned.", "quantifier": "all data descriptions of any depth and size", "why_tests_cant": "The data descriptions are unbounded trees.", "anchors": ["cobc/field.c: compute_size, cb_resolve_redefines, cb_validate_field"]}
{"id": "C55", "title": "Every value a picture allows fits the storage of the item", "statement": "For every picture, usage and binary-size option, the bytes reserved for a numeric item are enough for every value with that number of digits.", "quantifier": "all pictures, usages, options, values", "why_tests_cant": "The claim ranges over unboundedly many field sizes, contents and scales; a test fixes finitely many.", "anchors": ["cobc/field.c: compute_size"]}
{"id": "C56", "title": "Arithmetic expressions in function arguments are exact", "statement": "An arithmetic expression written as a function argument is passed as an item holding exactly the sum, difference or product of its operands, or their quotient truncated after at least 37 decimals.", "quantifier": "all operand items and values", "why_tests_cant": "The claim ranges over unboundedly many field sizes, contents and scales; a test fixes finitely many.", "anchors": ["libcob/intrinsic.c: cob_intr_binop"]}
{"id": "C57", "title": "SUM, ABS, SIGN, FACTORIAL", "statement": "FUNCTION SUM returns the exact sum of its arguments, ABS the magnitude with the description of the argument, SIGN -1/0/1, FACTORIAL n! up to 20.", "quantifier": "all argument lists and items", "why_tests_cant": "The claim ranges over unboundedly many field sizes, contents and scales; a test fixes finitely many.", "anchors": ["libcob/intrinsic.c: cob_intr_sum, cob_intr_abs, cob_intr_sign, cob_intr_factorial"]}
{"id": "C58", "title": "Function results stay intact while they are used", "statement": "The result of a function call is not changed by the function calls made before it is used (nested or neighbouring arguments), and results of any size are written inside their own storage.", "quantifier": "all histories of function calls and result sizes", "why_tests_cant": "The storage is shared by a rotating set of items: whether a result survives depends on the history of calls.", "anchors": ["libcob/intrinsic.c: make_field_entry, cob_init_intrinsic"]}
{"id": "C59", "title": "A PICTURE string declares the item it spells out", "statement": "A count in parentheses is only an abbreviation: two PICTURE strings that spell out alike declare the same item. The size, the number of digits, the decimal scale and the sign of the declared item, and its category (numeric, alphabetic, alphanumeric, numeric-edited, alphanumeric-edited), are those read off the spelled-out picture; S9(a)V9(b), S9(a)P(b) and SP(b)9(a) with up to 36 digits, and every numeric-edited picture whose editing C20 describes, are accepted.", "quantifier": "all PICTURE strings of up to 50 characters (without N), all counts, all currency signs and both decimal points", "why_tests_cant": "There are unboundedly many pictures; tests fix a few.", "anchors": ["cobc/tree.c: guess_pic_category, cb_build_picture, increase_character_length"]}
{"id": "C60", "title": "Arithmetic results in edited items are shown rounded and aligned", "statement": "When the receiver of an arithmetic statement is a numeric-edited item, it shows the exact result rounded (ROUNDED) or cut at the picture's decimal point, edited as MOVE would; a result that does not fit raises the size error and leaves the item unchanged under ON SIZE ERROR, otherwise the low-order digits are shown; an undefined result never changes it.", "quantifier": "all pictures with up to 64 digits whose editing C20 describes, all operands of any usage, all results", "why_tests_cant": "Unboundedly many pictures and values; tests fix a few.", "anchors": ["libcob/numeric.c: cob_decimal_get_field, cob_decimal_get_display", "libcob/move.c: cob_move", "cobc/typeck.c: build_decimal_assign"]}
{"id": "C61", "title": "Arithmetic statements compute exactly and round once", "statement": "ADD, SUBTRACT, MULTIPLY, DIVIDE (TO/FROM/BY/INTO and GIVING) and COMPUTE store in every receiver the exact value of the statement's arithmetic on the operands as they were before the statement, rounded or cut once at the receiver's scale (quotients inside a larger expression are carried to 37 or more decimal places); receivers that cannot hold the value follow ON SIZE ERROR independently of the others; a zero divisor anywhere leaves every receiver unchanged and raises the size error; no other item changes.", "quantifier": "all expressions of any depth over literals and DISPLAY, packed and binary items, any number of receivers (numeric or edited), all values", "why_tests_cant": "Expressions are unbounded trees over unbounded values, and the compiler chooses among several code sequences; tests exercise a few shapes.", "anchors": ["cobc/typeck.c: cb_emit_arithmetic, build_decimal_assign, decimal_expand, build_store_option", "cobc/tree.c: cb_fits_int", "cobc/codegen.c: output_integer", "cobc/parser.y: add_body, subtract_body, multiply_body, divide_body, compute_body", "libcob/numeric.c: cob_decimal_add, cob_decimal_sub, cob_decimal_mul, cob_decimal_div, cob_decimal_pow, cob_decimal_get_field"]}
{"id": "C62", "title": "Expressions and conditions are read with the standard precedence", "statement": "Every arithmetic expression the standard grammar allows (parentheses, unary signs, **, * and /, + and -, all left-associative) and every condition (relations with or without NOT, sign and class tests, condition-names, NOT before AND before OR, parentheses, and abbreviated relations whose missing subject or operator is that of the relation before) is accepted and compiled to exactly the tree the grammar gives it; no sentence has two readings.", "quantifier": "all token sequences of the grammar, of any length and nesting", "why_tests_cant": "The sentences are unboundedly long and nested, and the parser keeps hidden state for abbreviations; tests try a few sentences.", "anchors": ["cobc/typeck.c: cb_build_expr, cb_expr_shift, expr_reduce, cb_expr_shift_sign, cb_expr_shift_class, cb_expr_finish, expr_expand", "cobc/tree.c: cb_build_binary_op", "cobc/parser.y: expr_tokens, expr_token"]}
{"id": "C63", "title": "A condition holds exactly when its operands say so", "statement": "An IF or UNTIL condition evaluates to its truth value: relations of numeric operands (items of any usage, literals, ZERO, expressions) follow the numbers held, relations of texts the collating sequence with space padding, class tests the characters, condition-names the listed values and ranges; NOT, AND and OR combine them, a right-hand side that cannot matter is not evaluated, no item is changed, and the result does not depend on earlier comparisons or on subscript checking.", "quantifier": "all conditions of any depth, all operand usages and values, all earlier comparisons", "why_tests_cant": "The compiler chooses among a dozen comparison routines by usage and size, one of them with static state; conditions are unbounded trees.", "anchors": ["cobc/typeck.c: cb_build_cond, cb_build_optim_cond, cb_chk_num_cond, cb_chk_alpha_cond, build_cond_88, decimal_expand", "cobc/tree.c: cb_fits_int", "cobc/codegen.c: output_cond, output_integer", "libcob/numeric.c: cob_cmp_int, cob_cmp_uint, cob_cmp_packed, cob_decimal_cmp", "libcob/common.c: cob_cmp, cob_is_numeric, cob_is_alpha"]}
{"id": "C64", "title": "SEARCH finds an entry exactly when there is one", "statement": "SEARCH ALL on a table that is in the order of its keys (any number of keys, ascending or descending) and a WHEN phrase giving values to its leading keys ends at an entry equal to all the values if there is one and AT END otherwise, reading no entry outside the table; SEARCH stops at the first entry from the current index on, and there at the first WHEN phrase, whose condition is true; neither changes an item other than the index.", "quantifier": "all tables of any length, keys, contents, values, numbers of occurrences and start indexes, any collating sequence", "why_tests_cant": "Binary search correctness quantifies over all sorted contents and lengths; tests fix a few tables.", "anchors": ["cobc/typeck.c: search_set_keys, cb_build_search_all, cb_emit_search", "cobc/codegen.c: output_occurs, output_search_whens, output_search_all, output_cond"]}
{"id": "C65", "title": "PERFORM, GO TO and EXIT follow the structured flow of control", "statement": "For a program of paragraphs and sections built from statements, IF, GO TO (also DEPENDING ON), EXIT PARAGRAPH/SECTION/PERFORM [CYCLE], STOP RUN and PERFORM (inline or out of line; once, UNTIL EXIT, n TIMES, [TEST BEFORE/AFTER] UNTIL, VARYING ... AFTER), the generated code ends in a given way iff executing the statements as the standard describes does: a PERFORM of a range executes from its first paragraph and comes back when control reaches the end of its last one, an end of a range that is not being performed falls through, TIMES reads its count once, VARYING steps the last AFTER item fastest and resets it each time, TEST AFTER tests after the body. With at most 254 (253 with -fstack-check) PERFORMs active. A PERFORM n TIMES executed again before it has ended spoils its own count.", "quantifier": "every program, every nesting, every state and every behaviour of the other statements and conditions; runs of any length", "why_tests_cant": "programs, nestings and runs are unbounded; infinite loops cannot be told apart from long ones by a test", "anchors": ["cobc/codegen.c: output_goto, output_perform_exit, output_perform_call, output_perform_once, output_perform_until, output_perform", "cobc/parser.y: perform_statement, exit_body, section_header, paragraph_header", "cobc/typeck.c: cb_validate_program_body"]}
{"id": "C66", "title": "EVALUATE executes the statements of the first WHEN phrase that matches", "statement": "EVALUATE with any number of subjects (operands, conditions, TRUE, FALSE) and WHEN phrases (ANY, TRUE, FALSE, conditions, [NOT] values, [NOT] ranges with THRU, joined with ALSO) executes the statements after the first group of WHEN phrases one of which matches, that is each of its objects matches the subject in its place: a value if it compares equal, a range if the subject is within both ends, a condition if it is true (false for the subject FALSE). If none matches the statements of WHEN OTHER are executed, or none. The tests change no item. A NOT at the start of a condition in the second or later WHEN phrase of a group must apply to its first simple condition only (it does not: refuted).", "quantifier": "all subjects, WHEN phrases, groupings and contents of the items", "why_tests_cant": "the number of subjects, phrases and operand values is unbounded, and every combination of matching and not matching phrases counts", "anchors": ["cobc/parser.y: evaluate_statement, evaluate_subject, evaluate_object, evaluate_condition_list", "cobc/typeck.c: evaluate_test, build_evaluate"]}
{"id": "C67", "title": "INITIALIZE and program start give every item exactly its value, and nothing else", "statement": "INITIALIZE of any record, group, table or table element, with any combination of WITH FILLER, ALL TO VALUE, REPLACING and DEFAULT, leaves in every occurrence of every elementary item below it (REDEFINES entries aside) its VALUE, the moved REPLACING operand of its category, or the default (zero, spaces), in this order of preference; FILLER items (unless WITH FILLER), items to which no phrase applies and all other storage keep their contents. At program start every item receives its VALUE, or else its default. Literals are truncated or space-filled, ALL literals repeated. Refuted: the category of a VALUE phrase is ignored, FILLER items with VALUE are overwritten, WITH FILLER on a REDEFINES entry or a table element with a VALUE does nothing, and a level-01 table without VALUE is initialised in its first element only.", "quantifier": "all data descriptions of any nesting, OCCURS, REDEFINES and SYNC, all statements, all previous contents of storage", "why_tests_cant": "record structures are unbounded trees, and the compiler merges neighbouring items into one fill; tests try a few structures and cannot show that no other byte changes", "anchors": ["cobc/codegen.c: initialize_type, initialize_uniform_char, output_initialize_literal, output_initialize_one, output_initialize_compound, output_initialize, output_initial_values", "cobc/typeck.c: cb_emit_initialize"]}
{"id": "C68", "title": "DISPLAY shows the number an item holds", "statement": "DISPLAY of a numeric item writes, with pretty printing, its sign (if the picture has S), all integer figures, the decimal point of the program and all decimals of its picture, spelling exactly the number held (P positions as zeros); without pretty printing all digit positions as held, with the sign in front or behind. COMP-5 items, and binary items without pretty printing, are shown with enough figures for every number they can hold. Other items are written byte for byte; operands follow each other from left to right, then a newline unless NO ADVANCING. Whatever the stack contains does not show. Refuted: a COMP-5 item with decimals is shown without its decimal point; a COMP item holding more than its picture loses high-order digits.", "quantifier": "all DISPLAY, COMP-3 and binary items of any size, sign position and scale (also negative), all numbers within the picture, all decimal points, all operand lists", "why_tests_cant": "the digits, scales and signs form an unbounded space, and the scratch picture built for the editing routine has boundary cases (no integer digits, P positions) that a few examples miss", "anchors": ["libcob/termio.c: display_numeric, pretty_display_numeric, display, cob_display"]}
{"id": "C69", "title": "INDEXED files: every key shows the same records, in order, and no statement loses its place", "statement": "For every history of OPEN, CLOSE, START, READ, READ NEXT, READ PREVIOUS, WRITE, REWRITE and DELETE on an INDEXED file, with any number of alternate keys with and without DUPLICATES: reading by any key shows exactly the records of the file in ascending order of that key, duplicates in the order of their insertion. WRITE reports 22 exactly if a key without duplicates is taken and 21 exactly if sequential access goes down; REWRITE and DELETE change exactly the record named, 23 if there is none; statements that fail change nothing. READ by key finds the first record with the value; START the first (LESS: the last) record that satisfies its condition. READ NEXT and READ PREVIOUS deliver the neighbour of the last record read by the key of reference, whatever was written, rewritten or deleted in between, also if that record itself was deleted; a scan after OPEN or START delivers every record once, then 10, then 46. CLOSE and OPEN keep everything. Refuted: REWRITE in sequential access with a unique alternate key deletes another record or is undefined; with a changed RECORD KEY it fails with 22 after deleting; the length of a rewritten record is that of the last READ; REWRITE after a WRITE refused with 44 reads behind the record; a record written below the first one after OPEN is skipped; a new duplicate is skipped if the last one was deleted; START with LESS OR EQUAL and part of a key takes the first match; statements after CLOSE WITH LOCK use freed memory; OPEN EXTEND does not check the order; a failing READ changes the key of reference.", "quantifier": "all file descriptions (keys, access modes, record lengths), all histories of statements of any length, all record contents", "why_tests_cant": "the states of the file, its indexes and the saved position form an unbounded space, and defects appear only after particular sequences of statements", "anchors": ["libcob/fileio.c: indexed_open, indexed_close, indexed_start_internal, indexed_read, indexed_read_next, get_dupno, check_alt_keys, indexed_write_internal, indexed_write, indexed_delete_internal, indexed_delete, indexed_rewrite, cob_ex_open, cob_ex_close, cob_ex_start, cob_ex_read, cob_ex_write, cob_ex_rewrite, cob_ex_delete"]}
{"id": "C70", "title": "COPY REPLACING and REPLACE: the compiled text is the source with exactly the listed replacements", "statement": "The text the compiler sees is the source text, with copied files in the place of COPY statements, in which from left to right at each word the first entry of the list in force that matches (word by word, without regard to letter case, to blanks and to line ends) is replaced by its new text, which is not looked at again; everything else stays, in order. REPLACING is in force in the copied text only and is done before REPLACE; REPLACE is in force up to the next REPLACE statement. The result does not depend on how the words arrive: words are held back only while they begin a pattern. COPY without REPLACING is the same as the text in line, nested to any depth. With patterns of one word, LEADING and TRAILING, also every blank stays. Refuted: a blank before a replaced word is lost after a pattern that began in vain (A C becomes AD); a pattern without words makes the preprocessor run for ever; words that begin a pattern are lost at the end of the source, not replaced at the end of a copied file, and replaced by a REPLACE statement that follows them; a nested COPY REPLACING switches off the outer one; TRAILING under REPLACE changes the order of words; a word made by LEADING is not seen by REPLACE.", "quantifier": "all replacement lists, all sequences of source texts, COPY and REPLACE statements", "why_tests_cant": "whether a word is replaced depends on unboundedly many words before and after it and on the whole list", "anchors": ["cobc/pplex.l: ppecho_0, ppecho_1, ppecho_2, ppecho_final, ppecho, ppopen, pp_set_replace_list, pp_set_copy_replace_list, <<EOF>>", "cobc/ppparse.y: copy_statement, replace_statement, replacing_tokens"]}
{"id": "C71", "title": "CALL and CANCEL: a program is entered in its initial state exactly when it should be", "statement": "A CALL, by literal or identifier, enters the program whose PROGRAM-ID is that name (trailing blanks of an identifier do not count), or a library routine, or takes ON EXCEPTION. The program finds its WORKING-STORAGE in the initial state if it is called for the first time, has been cancelled since or is INITIAL, and otherwise exactly as it left it, whatever other programs did in between. CANCEL closes the files of the program and touches no other program; CANCEL ALL cancels exactly the programs called, directly or indirectly, by the running one, as long as no program calls more than two others and the names are plain words. If active programs are neither called nor cancelled nothing goes wrong and the current module is that of the running program. Refuted: names that differ in - and __ lead to the same program, and CANCEL by such a name does nothing; CANCEL ALL misses programs with a hyphen and the third program called; a program that is cancelled while active uses freed decimals and keeps files open; after a recursive CALL the caller does not get its module back; a CALL by a long identifier overruns a buffer; a trailing blank in a literal counts.", "quantifier": "all sets of programs, all histories of CALL, CANCEL, CANCEL ALL, stores, opens and exits, nested to any depth", "why_tests_cant": "the state a program is entered in depends on the whole history of the run unit, and on names that may collide in the table", "anchors": ["libcob/call.c: hash, insert, lookup, cob_set_cancel, cob_resolve, cobcancel, cob_field_cancel, cob_push_call_stack_list, cob_pop_call_stack_list, cob_cancel_call_stack_list, cob_cancel_all, cob_init_call", "libcob/common.c: cob_field_to_string", "cobc/codegen.c: output_internal_function, output_call", "cobc/typeck.c: cb_encode_program_id, cb_emit_call, cb_emit_cancel"]}
{"id": "C72", "title": "Fixed format source: what the compiler reads is the program the columns say", "statement": "For every source file of lines of at most 255 columns, with LF or CR LF and tabs, the text that reaches the scanner is: for each line the text of columns 8 to 72 if the indicator calls for it, with the blanks at the end left out; comment lines, blank lines and debugging lines that are off give empty lines; continuation lines are joined to the text they continue, and text of line n stays on line n. Columns 1 to 6 and those after 72 do not matter; inline comments change nothing; a literal continued over any number of lines is its pieces up to column 72, a word continued is its two parts. An invalid indicator or continuation is an error. Refuted: a blank continuation line makes the next line a continuation; the rest of a comment line longer than 256 columns is read as program text; *> in a literal between apostrophes cuts it; with another text column literals are still filled to column 72; enough comment lines overrun the buffer of the scanner.", "quantifier": "all source files: any number of lines, any bytes, tab widths, continuations over any number of lines", "why_tests_cant": "how a line is read depends on the quotation state left by all lines before, and the buffer on how many lines were skipped", "anchors": ["cobc/pplex.l: ppinput"]}
{"id": "C73", "title": "Conditional compilation: exactly the lines whose conditions hold are compiled", "statement": "Of a source with $IF, $ELSE and $END, nested up to ten deep, exactly those lines are compiled whose conditions all hold: NAME DEFINED if an option --constant defines the name, NAME = \"text\" if the first such option gives it that text, each also with NOT, in any letter case; lines that are left out may contain anything but directives. $ELSE or $END without $IF and an eleventh nested $IF are errors. Refuted: directives and left-out lines are not counted, so text after them has a wrong line number; a missing $END leaves out the rest of the source without an error; a wrong directive in left-out lines is an error; a switched-off >>D line is an error after six comment lines; a literal with a blank is not understood.", "quantifier": "all sources: any nesting up to the limit, any number of lines and constants, any fixed format text", "why_tests_cant": "what is compiled depends on the whole nesting of conditions around a line", "anchors": ["cobc/pplex.l: check_directive, check_dollar_directive, ppinput", "cobc/cobc.c: cb_constant_list_add"]}
{"id": "C74", "title": "Level numbers give the data hierarchy, and a qualified name means the one item it can mean", "statement": "A section of data descriptions is accepted exactly if it starts with 01 or 77, a 77 has no parts, and the parts of a group have the same level number; then an item belongs to the nearest item before it with a smaller level number (a condition name to the item before it), and the parts of each group and the records are kept in the order of the source. A reference n OF c1 OF c2 is taken to mean an item exactly if it is the only one named n such that the c are some of its owners from the inside out, the last possibly the file of the record; it is undefined if there is none and ambiguous if there are several. A paragraph name without section means the paragraph of that name in the current section if there is one, otherwise the only one in the program. Refuted: the section after a numeric paragraph name is ignored.", "quantifier": "all lists of level numbers and names of any length and depth, all qualified references, all sets of paragraphs and sections", "why_tests_cant": "the level numbers and names of a whole program decide, with any depth and number of equal names", "anchors": ["cobc/field.c: cb_build_field_tree", "cobc/tree.c: cb_ref, cb_field_founder", "cobc/parser.y: procedure_name, label"]}
{"id": "C75", "title": "CORRESPONDING takes exactly the corresponding items", "statement": "MOVE CORRESPONDING a TO b ... moves, for each target, exactly the pairs of items that the same names lead to from a and from b through groups, where no item on the way has REDEFINES or OCCURS and the two are not both groups; each pair once. ADD and SUBTRACT CORRESPONDING take the same pairs. It is an error exactly if one of the operands is not a group. Refuted: FILLER does not correspond (it does from one element of a table to another); ADD CORRESPONDING takes elementary items only.", "quantifier": "all hierarchies of any depth and width, all pairs of groups, any REDEFINES and OCCURS items", "why_tests_cant": "the pairs depend on the whole structure of both groups", "anchors": ["cobc/typeck.c: emit_corresponding, cb_emit_corresponding, emit_move_corresponding, cb_emit_move_corresponding, cb_check_group_name"]}
{"id": "C76", "title": "SORT USING GIVING leaves exactly the sorted records in every output file", "statement": "SORT f ON keys USING a ... GIVING b ...: afterwards every GIVING file contains exactly the records of all USING files, in order by the keys and, for equal keys, in the order in which they were read, each truncated or filled with spaces to the sort record and then to the file's record; the USING files are unchanged; SORT-RETURN is 0. Whatever the organizations (SEQUENTIAL fixed or variable in every record prefix format, LINE SEQUENTIAL), also if a file is named in both phrases. A USING file that does not exist counts as empty and the statement succeeds. Refuted: in-place sorting of a variable-length file (records are cut to the length of the last one read); record lengths are kept when sorting to a variable-length file.", "quantifier": "all files of any kinds, lengths and contents, all keys, any number of USING and GIVING files, all memory sizes", "why_tests_cant": "records pass through two files formats, the sort's work files and merges; any number of records, with any contents", "anchors": ["libcob/fileio.c: cob_copy_check, cob_file_sort_using, cob_file_sort_giving, cob_file_sort_submit, cob_file_sort_retrieve, cob_file_sort_close"]}
{"id": "C77", "title": "RANGE, MIDRANGE, MEDIAN, MEAN and VARIANCE describe the numbers they are given", "statement": "For numeric arguments of any usages and scales and any number of them: FUNCTION RANGE is exactly the greatest number minus the least one (when the difference has at most 18 digits); MIDRANGE is half the sum of the two; MEDIAN is the number in the middle of the arguments in ascending order, or half the sum of the two in the middle when their number is even, however equal arguments are arranged; MEAN is the sum divided by the number of arguments, truncated to 18 digits (all of the integer part and as many decimals as fit); VARIANCE is the mean square deviation from the mean, truncated to 18 digits, with an error below 10**-74 from the mean's own truncation, none if the mean has at most 37 decimals; VARIANCE of one number is 0. PRESENT-VALUE (r, a1 .. an) is the sum of a_i / (1 + r)**i up to n * 10**-37 before the conversion to COMP-2, for r other than -1; STANDARD-DEVIATION takes the root of the variance up to 2 * 10**-37.", "quantifier": "all lists of numeric arguments of any length, usages, sizes and scales; all results qsort may leave", "why_tests_cant": "the result depends on all arguments together; any number of them, in any order, with any digits", "anchors": ["libcob/intrinsic.c: cob_intr_range, cob_intr_midrange, cob_intr_median, cob_intr_mean, cob_intr_variance, cob_intr_standard_deviation, cob_intr_present_value, comp_field"]}
