{
 "claims": [
  {
   "property": "C01",
   "status": "partial",
   "theorems": [
    "C01_map_last_stored_partial",
    "C01_map_generic_partial",
    "C01_map_last_stored_refuted"
   ],
   "note": "False for growth with negative key hashes (witness: integer keys 1,5,8,11,27,100 lose 27); proved for every history, of any length, whose key hashes are non-negative or whose different keys stay within the initial capacity."
  },
  {
   "property": "C02",
   "status": "partial",
   "theorems": [
    "C02_lookup_terminates",
    "C02_store_terminates_partial",
    "C02_store_terminates_refuted"
   ],
   "note": "Lookups proved terminating in every reachable state; growth can loop for ever (variables d,i,j,o,y plus one more); stores without growth proved terminating."
  },
  {
   "property": "C03",
   "status": "partial",
   "theorems": [
    "C03_map_keys_partial",
    "C03_map_keys_refuted"
   ],
   "note": "Same restriction as C01; witness of a key listed twice."
  },
  {
   "property": "C04",
   "status": "proved",
   "theorems": [
    "C04_list_is_sequence"
   ],
   "note": "Every history of at most 2^30 stores with 32-bit indices."
  },
  {
   "property": "C05",
   "status": "partial",
   "theorems": [
    "C05_read_outside_rejected_refuted",
    "C05_store_outside_rejected_refuted",
    "C05_outside_rejected_partial",
    "C05_other_kinds_rejected"
   ],
   "note": "False for 64-bit indices, which are truncated to 32 bits (witnesses); proved for 32-bit indices. C05_other_kinds_rejected: an index that is not an integer is an error for lists and strings."
  },
  {
   "property": "C06",
   "status": "proved",
   "theorems": [
    "C06_encode_is_utf8",
    "C06_encode_out_of_range",
    "C06_round_trip"
   ],
   "note": "All code points, buffer sizes and trailing bytes."
  },
  {
   "property": "C07",
   "status": "proved",
   "theorems": [
    "C07_decode_in_bounds",
    "C07_count_total",
    "C07_count_ascii",
    "C07_count_text"
   ],
   "note": "Decoder bounds for every byte string; the character count terminates, is bounded, exact for ASCII and for encoded text."
  },
  {
   "property": "C08",
   "status": "partial",
   "theorems": [
    "C08_malformed_refused_refuted",
    "C08_accepted_malformed_kinds_refuted",
    "C08_accepted_iff_partial",
    "C08_wellformed_accepted"
   ],
   "note": "The full claim is false of the code (witness 0xC3 0x28); the exact set of accepted byte strings is characterised instead."
  },
  {
   "property": "C09",
   "status": "proved",
   "theorems": [
    "C09_prev",
    "C09_prev_sound",
    "C09_walk_back",
    "C09_next_in_bounds_refuted"
   ],
   "note": "Backward stepping proved; an additional theorem shows forward stepping (utf8_next) reads past the end."
  },
  {
   "property": "C10",
   "status": "proved",
   "theorems": [
    "C10_string_is_its_characters",
    "C10_text_characters",
    "C10_any_index_rejected_refuted"
   ],
   "note": "For every string object and every 32-bit index; an additional theorem shows that 64-bit indices are truncated."
  },
  {
   "property": "C11",
   "status": "partial",
   "theorems": [
    "C11_equal_means_same_text_refuted",
    "C11_equal_iff_same_text_partial"
   ],
   "note": "False for strings containing NUL (witness); proved when either string is NUL-free."
  },
  {
   "property": "C12",
   "status": "partial",
   "theorems": [
    "C12_equal_hash_refuted",
    "C12_equal_hash_strings_refuted",
    "C12_equal_hash_partial"
   ],
   "note": "False for 0.0/-0.0 and strings with NUL (witnesses); proved for all other scalar values."
  },
  {
   "property": "C13",
   "status": "partial",
   "theorems": [
    "C13_read_partial",
    "C13_write_partial",
    "C13_any_index_refuted"
   ],
   "note": "32-bit indices; 64-bit indices are truncated."
  },
  {
   "property": "C14",
   "status": "proved",
   "theorems": [
    "C14_slice_is_window"
   ],
   "note": "For all interleavings of writes through the buffer and through the slice."
  },
  {
   "property": "C15",
   "status": "partial",
   "theorems": [
    "C15_slice_inside_partial",
    "C15_slice_of_slice_refuted",
    "C15_negative_length_refuted"
   ],
   "note": "False: a negative length wraps around, and a slice of a slice is taken relative to the whole payload (witnesses); proved for non-negative arguments."
  },
  {
   "property": "C16",
   "status": "proved",
   "theorems": [
    "C16_stack_is_lifo"
   ],
   "note": "For all capacities and histories."
  },
  {
   "property": "C17",
   "status": "partial",
   "theorems": [
    "C17_frames_are_isolated",
    "C17_peek_refuted"
   ],
   "note": "Proved for histories that peek and pop only while a frame is live (ops_ok), as the interpreter does. C17_peek_refuted: peeking on a fresh runtime, with no frame, is undefined behaviour."
  },
  {
   "property": "C18",
   "status": "proved",
   "theorems": [
    "C18_limits_hold",
    "C18_refusal_changes_nothing",
    "C18_enter_refused_only_at_limit",
    "C18_push_refused_only_at_limit"
   ],
   "note": "For all histories of calls, returns, pushes and pops."
  },
  {
   "property": "C19",
   "status": "proved",
   "theorems": [
    "C19_collection_preserves_reachable",
    "C19_collection_succeeds"
   ],
   "note": "Every heap produced by any history of allocations, writes and successful collections; pool up to 2^29 bytes."
  },
  {
   "property": "C20",
   "status": "proved",
   "theorems": [
    "C20_finalizers_exactly_once",
    "C20_collection_finalizes_the_unreachable"
   ],
   "note": "Histories of successful collections; failed collections are C58."
  },
  {
   "property": "C21",
   "status": "proved",
   "theorems": [
    "C21_collection_reclaims_garbage"
   ],
   "note": "For all object graphs and root sets, in the model of heap.c."
  },
  {
   "property": "C22",
   "status": "proved",
   "theorems": [
    "C22_blocks_disjoint"
   ],
   "note": "Sizes up to 2^29."
  },
  {
   "property": "C23",
   "status": "proved",
   "theorems": [
    "C23_arena_blocks_disjoint",
    "C23_arena_in_caller_memory",
    "C23_arena_refusal"
   ],
   "note": "Sizes below 2^31 in total."
  },
  {
   "property": "C24",
   "status": "proved",
   "theorems": [
    "C24_bucketlist_is_bytes"
   ],
   "note": "Allocation succeeds."
  },
  {
   "property": "C25",
   "status": "proved",
   "theorems": [
    "C25_promise_delivers"
   ],
   "note": "For all interleavings of subscriptions and one resolution."
  },
  {
   "property": "C26",
   "status": "proved",
   "theorems": [
    "C26_fetch_what_was_emitted",
    "C26_accepted_iff",
    "C26_finalized_iff"
   ],
   "note": "String data must stay below 2 GiB (offsets are C ints)."
  },
  {
   "property": "C27",
   "status": "proved",
   "theorems": [
    "C27_targets_valid",
    "C27_never_invalid"
   ],
   "note": "For every tree codegen accepts (literals in range, code and data below 2^31)."
  },
  {
   "property": "C28",
   "status": "proved",
   "theorems": [
    "C28_balanced",
    "C28_returns_exactly"
   ],
   "note": "Static assignment of stack depths to instruction indices, checked against a separate description of the opcodes, and every state of every run has that depth."
  },
  {
   "property": "C29",
   "status": "proved",
   "theorems": [
    "C29_simulates",
    "C29_evaluates"
   ],
   "note": "Both directions, with the whole store compared; import (a second executable) and the collector are outside the machine model."
  },
  {
   "property": "C30",
   "status": "proved",
   "theorems": [
    "C30_short_circuit"
   ],
   "note": "Stated for the code of the operator at any place of any executable and any machine state within the limits."
  },
  {
   "property": "C31",
   "status": "partial",
   "theorems": [
    "C31_arguments",
    "C31_parameters_partial",
    "C31_results"
   ],
   "note": "Arguments and results in full; binding of names proved for plain parameters, at most five of them (map growth defect, see C02/C39). Default values and types: C91."
  },
  {
   "property": "C32",
   "status": "partial",
   "theorems": [
    "C32_delivered_partial",
    "C32_nine_values_refuted"
   ],
   "note": "Proved while at most eight values are delivered; refuted for nine: the ninth result is read from an uninitialised array entry."
  },
  {
   "property": "C33",
   "status": "partial",
   "theorems": [
    "C33_exact_when_it_fits_partial",
    "C33_never_wrong",
    "C33_overflow_refuted",
    "C33_mixed_and_errors"
   ],
   "note": "Exact whenever the result fits in 64 bits, never a wrong integer, mixed operands converted, non-numbers an error. Overflow is not reported: signed overflow is undefined (refuted)."
  },
  {
   "property": "C34",
   "status": "partial",
   "theorems": [
    "C34_division_law_partial",
    "C34_division_by_zero",
    "C34_float_division",
    "C34_never_crashes_refuted"
   ],
   "note": "Division law for every pair except a zero divisor and -2^63 by -1. Division by zero is reported; remainder by zero and -2^63 by -1 are undefined in C (refuted). Float division: error exactly for the two zeros, IEEE division otherwise."
  },
  {
   "property": "C35",
   "status": "partial",
   "theorems": [
    "C35_integers",
    "C35_floats_partial",
    "C35_mixed_refuted"
   ],
   "note": "Trichotomy and transitivity on integers and on floats other than NaN. Mixed int/float: refuted (1 <= 1.0 with neither < nor ==; <= not transitive)."
  },
  {
   "property": "C36",
   "status": "proved",
   "theorems": [
    "C36_equal_refl",
    "C36_equal_sym",
    "C36_equal_trans",
    "C36_different_types",
    "C36_reflexive_on_all_values_refuted"
   ],
   "note": "On values of comparable types (NaN excluded, as in IEEE-754)."
  },
  {
   "property": "C37",
   "status": "partial",
   "theorems": [
    "C37_positive",
    "C37_negative_partial",
    "C37_plain_exact",
    "C37_exact_refuted"
   ],
   "note": "Positive answers are right; negative answers are right unless an error was reported during the test; type objects, any, nullable and sum types are decided exactly. Refuted for list patterns inside sum types."
  },
  {
   "property": "C38",
   "status": "partial",
   "theorems": [
    "C38_plain_leaves_nothing_partial",
    "C38_undisturbed_refuted",
    "C38_selection_leaves_nothing"
   ],
   "note": "True of type objects, any, nullable and sum types. Refuted in general: a failed list pattern inside a sum type leaves a pending error that makes later map lookups fail. Proved of selections: an error inside a selection never stays pending."
  },
  {
   "property": "C39",
   "status": "partial",
   "theorems": [
    "C39_assignment_is_local",
    "C39_assignment_partial",
    "C39_lookup_partial",
    "C39_six_variables_refuted"
   ],
   "note": "Local effect of assignment proved for every state; histories (of any length) and lookup proved for scopes with few different names (at most four, or five assigned in turn) or names of non-negative hash; refuted in general: the program d=1;i=2;j=3;o=4;y=5;z=6; hangs at the sixth assignment."
  },
  {
   "property": "C40",
   "status": "proved",
   "theorems": [
    "C40_tokens_tile",
    "C40_tokenizing_ends"
   ],
   "note": "Every byte string; also no out-of-bounds read when the source is NUL-terminated. Without a terminator (Source_FromString) an unclosed string literal reads past the end: outcome LUB of the model."
  },
  {
   "property": "C41",
   "status": "partial",
   "theorems": [
    "C41_adjacent_refuted",
    "C41_runs_partial",
    "C41_separated_partial"
   ],
   "note": "False of the code: operators are only recognized when the whole run of operator characters is one. Refuted for every two-character operator followed by any operator; what runs give is characterised, and operators kept apart are recognized."
  },
  {
   "property": "C42",
   "status": "proved",
   "theorems": [
    "C42_printing",
    "C42_parsing_inverts",
    "C42_reparsing",
    "C42_grammar",
    "C42_one_reading"
   ],
   "note": "The parser accepts exactly the token sequences of an independently stated grammar, the grammar is unambiguous, every tree the parser can give has a writing that is read back."
  },
  {
   "property": "C43",
   "status": "proved",
   "theorems": [
    "C43_chains",
    "C43_only"
   ],
   "note": "Every chain of any length; the grouping is unique and is the tree parsed. The levels are those of the source (a comma binds tighter than any other infix operator)."
  },
  {
   "property": "C44",
   "status": "partial",
   "theorems": [
    "C44_parsing_ends",
    "C44_crash_needs_open_brace_partial",
    "C44_open_map_refuted",
    "C44_trees"
   ],
   "note": "False of the code: an unfinished map literal at the end of the text dereferences NULL. Proved: parsing always ends, and goes wrong only if more braces are opened than closed."
  },
  {
   "property": "C45",
   "status": "proved",
   "theorems": [
    "C45_literals",
    "C45_spellings"
   ],
   "note": "Every text below 4096 bytes, both quotes, and every spelling with the six escapes."
  },
  {
   "property": "C46",
   "status": "partial",
   "theorems": [
    "C46_integer_operand_partial",
    "C46_min_refuted"
   ],
   "note": "Exact for every digit string except that -2^63, which fits, is refused (C46_min_refuted)."
  },
  {
   "property": "C47",
   "status": "partial",
   "theorems": [
    "C47_equiv_sound_partial",
    "C47_equiv_decides_agreement",
    "C47_equiv_refuted"
   ],
   "note": "Integer operands are compared after truncation to 32 bits and floats with ==, so the full claim is refuted; C47_equiv_decides_agreement says exactly what equality means."
  },
  {
   "property": "C48",
   "status": "partial",
   "theorems": [
    "C48_cat_partial",
    "C48_cat_refuted",
    "C48_cat_strings_only",
    "C48_slice_outside",
    "C48_slice_partial",
    "C48_slice_defaults",
    "C48_slice_refuted"
   ],
   "note": "cat: proved for totals below 2^31 bytes; from 2^32 bytes on the code writes outside of its buffer. slice: outside refused, inside exact; false in that a cut through a character is refused."
  },
  {
   "property": "C49",
   "status": "partial",
   "theorems": [
    "C49_trim_partial",
    "C49_blank_partial",
    "C49_leading_refuted",
    "C49_reads_outside_refuted"
   ],
   "note": "Proved without leading space and for blank strings; false with one leading space (a NUL is appended) and undefined with more."
  },
  {
   "property": "C50",
   "status": "partial",
   "theorems": [
    "C50_numbers_partial",
    "C50_truncated_refuted",
    "C50_overflow",
    "C50_no_number",
    "C50_message_partial",
    "C50_message_refuted"
   ],
   "note": "Exact below 2^31; above, the result is truncated to 32 bits (false); overflow from 2^63 on; other strings never give a number, but a long digit prefix is reported as overflow instead of not an integer."
  },
  {
   "property": "C51",
   "status": "partial",
   "theorems": [
    "C51_toString_partial",
    "C51_toString_anywhere_partial",
    "C51_negative_refuted",
    "C51_large_refuted",
    "C51_text_unique"
   ],
   "note": "Proved for 0 <= z < 10^18, for a whole program and for a call made at any moment; every negative integer is refused with an error and every integer from 10^18 on overflows a multiplication."
  },
  {
   "property": "C52",
   "status": "partial",
   "theorems": [
    "C52_lists",
    "C52_maps_partial",
    "C52_next_is_the_method",
    "C52_maps_refuted"
   ],
   "note": "Proved for every list of at most 2^30 elements and every number of calls, in any state reached after the prelude. For maps: histories of stores of scalar keys that do not trigger the growth defect, without an entry \"iter\". Refuted for maps that lost a key when growing (C01). The collection is not modified between the calls."
  },
  {
   "property": "C53",
   "status": "proved",
   "theorems": [
    "C53_absolute",
    "C53_in_buffer"
   ],
   "note": "For all paths, working directories and buffer sizes."
  },
  {
   "property": "C54",
   "status": "partial",
   "theorems": [
    "C54_complete",
    "C54_no_double_free",
    "C54_no_leak_partial",
    "C54_leak_refuted"
   ],
   "note": "Completeness and absence of double frees for every history; no leak when reports are freed before the next; a second report over a long message leaks it (false)."
  },
  {
   "property": "C55",
   "status": "proved",
   "theorems": [
    "C55_storage_lifetime",
    "C55_no_bad_access"
   ],
   "note": "Histories that respect the bounds condition of C15."
  },
  {
   "property": "C56",
   "status": "partial",
   "theorems": [
    "C56_new_buffer_partial",
    "C56_new_buffer_refuted"
   ],
   "note": "False for buffer.new(-1) (the size computation wraps); proved for sizes below 2^63."
  },
  {
   "property": "C57",
   "status": "proved",
   "theorems": [
    "C57_copy_elements",
    "C57_keys_of_list",
    "C57_new_from_items"
   ],
   "note": "For all lists."
  },
  {
   "property": "C58",
   "status": "partial",
   "theorems": [
    "C58_failed_collection_refuted",
    "C58_free_after_failed_collection_refuted"
   ],
   "note": "False of the code: the destructor of a reachable object runs twice, or runs on a block that is no longer an object."
  },
  {
   "property": "C59",
   "status": "partial",
   "theorems": [
    "C59_assembler_total",
    "C59_unterminated_refuted",
    "C59_reported_error_refuted"
   ],
   "note": "Termination and absence of out-of-place accesses proved for NUL-terminated texts; refuted for unterminated (string) sources and for 'executable only if no error was reported' (a name starting with a digit)."
  },
  {
   "property": "C60",
   "status": "proved",
   "theorems": [
    "C60_import_path"
   ],
   "note": "For all paths, script locations, working directories and buffer sizes."
  },
  {
   "property": "C61",
   "status": "proved",
   "theorems": [
    "C61_a_copy_is_new"
   ],
   "note": "Static maps (the built-in modules) are shared, they cannot be changed. Values containing functions, closures or types are outside of the statement."
  },
  {
   "property": "C62",
   "status": "partial",
   "theorems": [
    "C62_maps_partial",
    "C62_strings_partial",
    "C62_lists_refuted",
    "C62_lists_leave_the_pool_refuted"
   ],
   "note": "True of maps and strings. False of lists: walkexts uses sizeof(Object) (16) where the array was allocated with sizeof(Object*) (8), so the collector reads twice the array, for every capacity."
  },
  {
   "property": "C63",
   "status": "proved",
   "theorems": [
    "C63_assembles",
    "C63_refuses",
    "C63_labels",
    "C63_duplicate_label_refuted",
    "C63_fraction_refuted"
   ],
   "note": "Every layout of every program (text shorter than 2^31 bytes): assembled iff every line is well typed and its labels exist, and then line k is what is fetched at k. Two further claims are refuted: C63_duplicate_label_refuted (a label given to two lines is accepted: nearest line from the use back, else the first after) and C63_fraction_refuted (0.3 is one step above the double that 0.3 means in a program)."
  },
  {
   "property": "C64",
   "status": "partial",
   "theorems": [
    "C64_lines_partial",
    "C64_line_partial",
    "C64_long_line_refuted",
    "C64_end_refuted"
   ],
   "note": "Proved for lines of at most 255 bytes that are valid text (others are refused with an error), any number of calls. Refuted: 256 bytes without a newline make realloc work on a stack array; the end of the input is never noticed."
  },
  {
   "property": "C65",
   "status": "partial",
   "theorems": [
    "C65_read_partial",
    "C65_recv_partial",
    "C65_write_partial",
    "C65_send_partial",
    "C65_negative_count",
    "C65_recv_fails",
    "C65_file_round_trip",
    "C65_count_refuted",
    "C65_write_huge_refuted"
   ],
   "note": "Proved for buffers and counts below 2^31, in every state reached by operations with non-negative sizes; streams that do not fail. Refuted: a count that is a multiple of 2^32 moves nothing; writing a whole buffer of 2 GB or more reads outside of it."
  },
  {
   "property": "C66",
   "status": "partial",
   "theorems": [
    "C66_open_partial",
    "C66_open_refuted"
   ],
   "note": "The modes 0 to 3 are answered (3 opens for appending). Refuted for every other mode: fopen is called with a NULL mode."
  },
  {
   "property": "C67",
   "status": "partial",
   "theorems": [
    "C67_floor_partial",
    "C67_ceil_partial",
    "C67_integers",
    "C67_refuted"
   ],
   "note": "Proved for every double within the range of 64-bit integers. Refuted: NaN, infinities and large values are converted to an integer (undefined)."
  },
  {
   "property": "C68",
   "status": "partial",
   "theorems": [
    "C68_one_argument",
    "C68_atan2",
    "C68_pow_partial",
    "C68_pow_refuted"
   ],
   "note": "Proved for the functions of one argument, for atan2, and for pow unless it is called with exactly one argument. Refuted: pow(x) reads a second argument that is not there, it is registered with one."
  },
  {
   "property": "C69",
   "status": "partial",
   "theorems": [
    "C69_generate_partial",
    "C69_above_refuted",
    "C69_bits_refuted",
    "C69_default_refuted",
    "C69_spread_refuted"
   ],
   "note": "Proved for bounds that are 32-bit integers at most 2^22 apart. Refuted: generate(-4194306, -1) may return 0; bounds beyond 32 bits are cut; without arguments the conversion may be undefined."
  },
  {
   "property": "C70",
   "status": "partial",
   "theorems": [
    "C70_to_string_partial",
    "C70_from_string",
    "C70_round_trip",
    "C70_cut_refuted",
    "C70_zero_refuted"
   ],
   "note": "Proved for buffers below 2^31 bytes (strings are never larger), in every state reached by operations with non-negative sizes. Refuted for larger buffers, with what happens instead: sizes are cut to 32 bits (C70_cut_refuted, C70_zero_refuted). Missing: buffers of 2^31 bytes or more (modulo 2^32) without a zero byte, where strlen reads on behind the buffer."
  },
  {
   "property": "C71",
   "status": "partial",
   "theorems": [
    "C71_compiles",
    "C71_runs",
    "C71_evaluates",
    "C71_unreadable_partial",
    "C71_semantic_refuted"
   ],
   "note": "Proved for texts below 64 MB, from the text to every outcome of the run (except the resource limits of the machine). Missing: a text without a program is refused only if the parser does not run into C44's open braces; a semantic error is undefined behaviour instead of a message (refuted)."
  },
  {
   "property": "C72",
   "status": "partial",
   "theorems": [
    "C72_file",
    "C72_file_only_partial",
    "C72_no_file",
    "C72_large_file_refuted",
    "C72_string",
    "C72_unterminated_refuted",
    "C72_open_quote_refuted",
    "C72_alive",
    "C72_freed"
   ],
   "note": "Proved for files and strings below 2^31 bytes. Refuted: a file of 2^32+k bytes is read as its first k bytes; no source made from a string is NUL-terminated, and the tokenizer reads behind an open quote."
  },
  {
   "property": "C73",
   "status": "partial",
   "theorems": [
    "C73_prints",
    "C73_one_text",
    "C73_full",
    "C73_strings",
    "C73_nul_refuted",
    "C73_buffers",
    "C73_bytes_read_back",
    "C73_large_buffer_refuted"
   ],
   "note": "Proved for all closed stores; the text of floats is left to the C library. Refuted: a string is written up to its first NUL; a buffer of 2^31 bytes is written as an empty one."
  },
  {
   "property": "C74",
   "status": "partial",
   "theorems": [
    "C74_calculates_partial",
    "C74_calculates",
    "C74_out_of_range_refuted"
   ],
   "note": "Proved for all expressions of literals and operators (but the type operators ? and |) that hold at most 16 values at once; beyond, a limit may be reported instead. Refuted: integer overflow and remainder by zero are undefined instead of reported."
  },
  {
   "property": "C75",
   "status": "proved",
   "theorems": [
    "C75_within",
    "C75_results",
    "C75_moves",
    "C75_reported",
    "C75_reported_call",
    "C75_reported_return",
    "C75_only_depth",
    "C75_callfree"
   ],
   "note": "Proved for all executables; the static bound is computed from the tree (DepthSpec.v)."
  },
  {
   "property": "C76",
   "status": "partial",
   "theorems": [
    "C76_hash_of_content",
    "C76_hash_alike",
    "C76_copy_hashes_alike",
    "C76_copy_changes_nothing",
    "C76_copy_refused",
    "C76_never_found",
    "C76_found_refuted"
   ],
   "note": "C76_hash_of_content, C76_hash_alike, C76_copy_hashes_alike, C76_copy_changes_nothing and C76_copy_refused are proved for all heaps. The last claim is false: C76_found_refuted (a value stored under a list is read back as none, and a second store is an error) and, for all heaps and keys, C76_never_found."
  },
  {
   "property": "C77",
   "status": "partial",
   "theorems": [
    "C77_functions",
    "C77_ord",
    "C77_ord_refused",
    "C77_chr",
    "C77_chr_refused_partial",
    "C77_chr_refused_refuted",
    "C77_count",
    "C77_keysof",
    "C77_typename_partial",
    "C77_typename_refuted",
    "C77_type_names",
    "C77_names_partial",
    "C77_names_refuted"
   ],
   "note": "ord, chr (as inverses), count, keysof and the type names of scalars are proved in full. C77_chr_refused_partial covers numbers of 32 bits; wider ones are cut first (C77_chr_refused_refuted). C77_typename_partial leaves out the types of functions, any and tables, whose names find nothing (C77_typename_refuted). C77_names_partial covers names without zero byte; C77_names_refuted: a zero byte hides the rest of the name, and any unknown name looked up in string runs past the end of its table."
  },
  {
   "property": "C78",
   "status": "partial",
   "theorems": [
    "C78_performs_partial",
    "C78_one",
    "C78_names",
    "C78_euclid"
   ],
   "note": "C78_performs_partial: both directions, from the text to the machine, in terms of a finite assignment of values to names (WhileSpec.v). Missing: functions (C88, C91), lists (C92) and maps (all together: C94); programs that use at most four variables, or variables with non-negative hashes (C02), none of them named like a builtin, and whose expressions hold at most 16 values at once (fits_stmts); strings must be sequences of what the interpreter takes for characters. C78_one, C78_names and C78_euclid are full."
  },
  {
   "property": "C79",
   "status": "partial",
   "theorems": [
    "C79_started",
    "C79_names",
    "C79_later_wins_refuted",
    "C79_free_names",
    "C79_abs_partial",
    "C79_abs_refuted",
    "C79_abs_float_partial",
    "C79_abs_float_refuted",
    "C79_abs_refused",
    "C79_negation",
    "C79_min_max",
    "C79_min",
    "C79_max",
    "C79_isCallable",
    "C79_append",
    "C79_append_refused",
    "C79_digit_partial",
    "C79_no_digit",
    "C79_digit_refused",
    "C79_euclid"
   ],
   "note": "Names, calls and refusals are proved for every state after start-up. False parts, refuted with witnesses: a plugged object does not take precedence over the basic builtins (Runtime_plugBuiltins puts the old builtins in front); abs of the least integer is signed overflow; abs(-0.0) is -0.0. integerFromDigit looks at the first character only: \"12\" gives 1."
  },
  {
   "property": "C80",
   "status": "partial",
   "theorems": [
    "C80_collections_unseen_partial",
    "C80_programs_partial",
    "C80_builtins",
    "C80_results_print",
    "C80_heap_holds_state"
   ],
   "note": "Proved for every run with collections that does not end inside an operation that never returns (hashing, copying or type-testing a cyclic structure); such an end is not compared. The natives that are abstract in the model (files, sockets, buffers, floats) are assumed not to depend on where objects are. Failed collections are property C58."
  },
  {
   "property": "C81",
   "status": "partial",
   "theorems": [
    "C81_text_is_the_drawing",
    "C81_lines",
    "C81_parsed",
    "C81_not_parsed",
    "C81_drawn_as_tree",
    "C81_one_reading",
    "C81_names_shown_partial",
    "C81_names_shown_refuted",
    "C81_long_return_refuted",
    "C81_number_labels",
    "C81_number_labels_refuted",
    "C81_buffers_hold"
   ],
   "note": "That every name is shown holds for programs whose tuples are only returned and that have no arrow; it is refuted for `a, b = f(1);` (a tuple is drawn as a point without label and nothing below) and for `x->g();` (the node of an arrow is read through another structure, so that the object is lost). The label of a number outside 32 bits is its low half (refuted for 4294967296). A return of more than 32 values overruns an array. The text of floats (%g) is a parameter."
  },
  {
   "property": "C82",
   "status": "partial",
   "theorems": [
    "C82_fields_read",
    "C82_duplicate_refused",
    "C82_duplicate_aborted",
    "C82_reading_ends",
    "C82_names",
    "C82_few_fields_safe_partial",
    "C82_many_fields_never_pass",
    "C82_many_fields_refuted",
    "C82_bracket_refuted",
    "C82_compiler_test",
    "C82_runtime_test",
    "C82_every_test_counted",
    "C82_long_path_refuted"
   ],
   "note": "Safety is proved for texts with at most seven at signs; it is refuted beyond (the fields are moved when an eighth is there, their names and bodies keep pointing into the old array, and free gets what malloc never gave), so with eight fields or more no test passes. Refuted: a body may contain its closing bracket; paths of any length fit. Assumes that files can be opened, that memory is found, and the C locale. RepoTests.v runs the 253 tests of the repository through the model (a test, not a proof): all pass."
  },
  {
   "property": "C83",
   "status": "partial",
   "theorems": [
    "C83_said_partial",
    "C83_refused",
    "C83_boolean_refuted",
    "C83_self_refuted",
    "C83_type_refuted",
    "C83_ambiguous_refuted"
   ],
   "note": "Missing: texts of 2^31 bytes or more, floats, and maps with a toString of their own. Refuted: every value has a text (booleans are refused); toString always ends (not on a list that starts with itself); a type is told by its name (it gives \"Type\"); different values have different texts."
  },
  {
   "property": "C84",
   "status": "partial",
   "theorems": [
    "C84_positions",
    "C84_trace_partial",
    "C84_limit",
    "C84_line_refuted",
    "C84_last_refuted"
   ],
   "note": "For assembled programs; compiled ones in C96, those that import files in C99. Missing: assembled programs that import files. Refuted: the line is that of the instruction that failed (it is that of the next one; none at all for the last instruction of a program)."
  },
  {
   "property": "C85",
   "status": "partial",
   "theorems": [
    "C85_survives_partial",
    "C85_twice_refuted",
    "C85_full_refuted",
    "C85_exhausted_refuted"
   ],
   "note": "Missing: failures of allocation. Refuted: two programs may be refused by one runtime (the only frame for refused programs is linked behind itself: the trace never ends and Runtime_Free releases a source twice; with 16 calls left the trace reads a released source); a runtime stays usable (after 16 calls left by failed programs each further program is refused)."
  },
  {
   "property": "C86",
   "status": "partial",
   "theorems": [
    "C86_line",
    "C86_asks",
    "C86_refused",
    "C86_help",
    "C86_no_input",
    "C86_draw",
    "C86_run",
    "C86_unstarted",
    "C86_heap",
    "C86_status",
    "C86_trailing_refuted",
    "C86_unknown_refuted",
    "C86_help_refuted",
    "C86_negative_refuted",
    "C86_truncate_refuted",
    "C86_unwritten_refuted"
   ],
   "note": "Missing: writing that fails, signals. Refuted: unknown options are refused (they are taken for the input); what stands behind the input is looked at; -h always gives help; a negative heap size is refused (a blank in front of it gives 65536 bytes); -o without -p leaves the file alone (it is emptied); a profile that cannot be written is reported. A heap size that does not fit an int is undefined."
  },
  {
   "property": "C87",
   "status": "partial",
   "theorems": [
    "C87_profile_partial",
    "C87_one_line_refuted",
    "C87_unnamed_refuted"
   ],
   "note": "Missing: several executables (import, prelude), natives that call functions; the measured times are not modelled. Refuted: a function of the text has one line (it has one for each time its definition is executed); a profile of a program without a name (-i) can be printed (NULL is given to %s)."
  },
  {
   "property": "C88",
   "status": "partial",
   "theorems": [
    "C88_functions_partial",
    "C88_more",
    "C88_forever",
    "C88_factorial"
   ],
   "note": "Missing: lists and maps (C94 has them); functions as values, functions defined in functions or behind other statements. Scopes with more than four names need names with nonnegative hashes (see C02)."
  },
  {
   "property": "C89",
   "status": "partial",
   "theorems": [
    "C89_descriptors_partial",
    "C89_lost_refuted",
    "C89_socket",
    "C89_bind",
    "C89_listen",
    "C89_accept",
    "C89_close",
    "C89_peer",
    "C89_wrong_argument",
    "C89_ends",
    "C89_bind_result_refuted",
    "C89_port_refuted",
    "C89_accept_port_refuted",
    "C89_alias_refuted"
   ],
   "note": "C89_descriptors_partial assumes that a socket can be made reusable; C89_lost_refuted shows that otherwise the descriptor is lost. Refuted too: bind answers none first on success and on refusal; ports above 65535 are other ports; the port of accept has its bytes exchanged; descriptors are cut to 32 bits. The other theorems are full. The transfers are in C65."
  },
  {
   "property": "C90",
   "status": "partial",
   "theorems": [
    "C90_listed_partial",
    "C90_name_refuted",
    "C90_open",
    "C90_open_wrong",
    "C90_zero_refuted"
   ],
   "note": "Names that are texts; a name that is not ends the program with an error (C90_name_refuted); a path is cut at a zero byte (C90_zero_refuted)."
  },
  {
   "property": "C91",
   "status": "partial",
   "theorems": [
    "C91_parameters",
    "C91_earlier_refuted",
    "C91_later",
    "C91_itself",
    "C91_type_names"
   ],
   "note": "C91_parameters is full for literal arguments and default values; other default values are covered by C88_functions_partial. Refuted: a default value cannot name a parameter in front of it (C91_earlier_refuted). Types that are values of variables, lists or maps are not covered."
  },
  {
   "property": "C92",
   "status": "partial",
   "theorems": [
    "C92_lists_partial",
    "C92_more",
    "C92_sort",
    "C92_far_refuted"
   ],
   "note": "C92_lists_partial: from the text to the machine, in terms of a finite assignment of values to names and a numbered collection of sequences (ListsSpec.v). Missing: indices beyond 32 bits, which are cut (C92_far_refuted), lists of 2^30 items, maps and functions together with lists (C94 has them); programs that use at most four variables, or variables with non-negative hashes (C02). C92_sort and C92_more are full."
  },
  {
   "property": "C93",
   "status": "proved",
   "theorems": [
    "C93_file",
    "C93_fails",
    "C93_alone",
    "C93_nesting",
    "C93_made",
    "C93_kept",
    "C93_called",
    "C93_without",
    "C93_where",
    "C93_performs"
   ],
   "note": "C93_alone compares an import with a run of the file with nothing below it; it needs that run to stay within 13 - depth frames (beyond that the frame limit is met, C93_nesting). The files are assumed not to change while the program runs. C93_performs goes from the two texts to the result for files of the kind of C78."
  },
  {
   "property": "C94",
   "status": "partial",
   "theorems": [
    "C94_collections_partial",
    "C94_more",
    "C94_forever"
   ],
   "note": "C94_collections_partial: from the text to the machine, in terms of assignments of values to names and a numbered series of sequences and association lists (CollSpec.v). Missing: list indices beyond 32 bits, lists of 2^30 items, maps with five or more keys of which one has a negative hash (C01), floats, lists and maps as keys, functions as values, calls of builtins; when the telling meets the limit of calls but, without a limit, would meet one of these, only the disjunction is proved. Scopes with more than four names need names with nonnegative hashes (C02). C94_more and C94_forever are full."
  },
  {
   "property": "C95",
   "status": "proved",
   "theorems": [
    "C95_listing",
    "C95_compiled",
    "C95_tells",
    "C95_alike",
    "C95_tells_refuted"
   ],
   "note": "The text of a float (printf %f) is arbitrary, without spaces and line breaks in C95_tells. C95_tells_refuted: without the condition on strings it is false, already of two compiled texts."
  },
  {
   "property": "C96",
   "status": "proved",
   "theorems": [
    "C96_same",
    "C96_inside",
    "C96_names",
    "C96_between",
    "C96_targets",
    "C96_error",
    "C96_trace",
    "C96_limit",
    "C96_refused",
    "C96_literal_refuted",
    "C96_length_refuted",
    "C96_line_refuted"
   ],
   "note": "Three stronger statements are false: C96_literal_refuted (a string is placed at the token behind it), C96_length_refuted (the length of a place can be negative), C96_line_refuted (the line named can be another one than that of the expression that failed)."
  },
  {
   "property": "C97",
   "status": "partial",
   "theorems": [
    "C97_written_partial",
    "C97_ends_partial",
    "C97_more",
    "C97_countdown"
   ],
   "note": "Missing: lists, maps, functions and the other builtins as in C92 and C94; print as a value. The stream is unbuffered and writing never fails in the model."
  },
  {
   "property": "C98",
   "status": "partial",
   "theorems": [
    "C98_imports_aborts",
    "C98_imports_obeyed",
    "C98_imports_untouched",
    "C98_imports_trace",
    "C98_imports_never_again",
    "C98_aborts",
    "C98_obeyed",
    "C98_untouched",
    "C98_trace",
    "C98_written_partial",
    "C98_never_again",
    "C98_again_refuted",
    "C98_stuck_refuted"
   ],
   "note": "Full, also for programs that import files (C98_imports_*), except C98_written_partial (the programs of C97). False: a runtime can be used again after an interruption (C98_again_refuted; C98_never_again: it aborts every later program at once); every program can be stopped (C98_stuck_refuted: the assignment of C39 that does not end)."
  },
  {
   "property": "C99",
   "status": "proved",
   "theorems": [
    "C99_trace",
    "C99_limit",
    "C99_aborted",
    "C99_released",
    "C99_place_refuted"
   ],
   "note": "For programs that start in a file or in a string with a name: errors, limits, abortions. False: the trace names the file that was refused in any case (C99_place_refuted: not when 16 calls are active, e.g. behind seven imports)."
  }
 ]
}