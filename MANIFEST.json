{
 "claims": [
  {
   "property": "C01",
   "status": "proved",
   "theorems": [
    "C01_edit_distance_minimal",
    "C01_edit_distance_zero",
    "C01_edit_distance_symmetric",
    "C01_edit_distance_triangle"
   ],
   "note": "Strings shorter than 2^31 (the source casts the index to int). Characters compared after case folding."
  },
  {
   "property": "C02",
   "status": "proved",
   "theorems": [
    "C02_similarity_at_most_one",
    "C02_similarity_one_iff_equal",
    "C02_similarity_at_least_minus_one",
    "C02_similarity_value",
    "C02_similarity_nonnegative_refuted"
   ],
   "note": "double replaced by exact rationals. The 0 lower bound promised by the source comment is refuted; -1 is proved."
  },
  {
   "property": "C03",
   "status": "proved",
   "theorems": [
    "C03_diff_marks_longest_common_subsequence"
   ],
   "note": "Texts with min length below 2^24 (width of the matrix counter)."
  },
  {
   "property": "C04",
   "status": "proved",
   "theorems": [
    "C04_wildcard_is_glob"
   ],
   "note": "Strings without embedded NUL. Case folding is ASCII tolower. Termination via an explicit iteration bound that is proved never to be reached."
  },
  {
   "property": "C05",
   "status": "proved",
   "theorems": [
    "C05_push",
    "C05_push_back",
    "C05_add_before",
    "C05_add_after",
    "C05_out",
    "C05_pop",
    "C05_pop_back",
    "C05_traverse",
    "C05_empty",
    "C05_ends",
    "C05_pop_entry",
    "C05_remove_while_iterating"
   ],
   "note": "Heap of next/prev links addressed by node; lists are circular with a sentinel as in the source."
  },
  {
   "property": "C06",
   "status": "proved",
   "theorems": [
    "C06_sort_is_stable_sort",
    "C06_sort_permutes_for_any_comparator"
   ],
   "note": "Comparator is a pure integer-valued function. Permutation is proved for every comparator, ordering and stability for total preorders."
  },
  {
   "property": "C07",
   "status": "proved",
   "theorems": [
    "C07_no_overlap",
    "C07_inside_mapped_memory",
    "C07_allocation_size_and_alignment",
    "C07_user_bytes_exclusive",
    "C07_huge_request_refuted"
   ],
   "note": "System mapping is an oracle that returns fresh page-aligned memory. Requests near 2^64 wrap; that is the listed _refuted theorem."
  },
  {
   "property": "C08",
   "status": "proved",
   "theorems": [
    "C08_bytes_conserved",
    "C08_every_byte_accounted",
    "C08_free_returns_bytes",
    "C08_all_freed"
   ],
   "note": "Same model as C07."
  },
  {
   "property": "C09",
   "status": "proved",
   "theorems": [
    "C09_null_exactly_in_window",
    "C09_succeeds_outside_window",
    "C09_always_succeeds_refuted"
   ],
   "note": "Succeeds outside the window; null exactly in the window; the unconditional claim is refuted. Rounding by double in the source is taken as exact."
  },
  {
   "property": "C10",
   "status": "proved",
   "theorems": [
    "C10_destroyed_exactly_once",
    "C10_only_adopted_destroyed",
    "C10_bool_conversion"
   ],
   "note": "Well-formed programs (each raw pointer is handed over once). Destructors of managed objects do not themselves touch the handles."
  },
  {
   "property": "C11",
   "status": "proved",
   "theorems": [
    "C11_placement",
    "C11_power_of_two_alignment",
    "C11_large_alignment_refuted",
    "C11_odd_alignment_refuted"
   ],
   "note": "Sizes below 2^52, alignments below 2^32, mapping inside the 64-bit address space. Ceil in double is exact in that range."
  },
  {
   "property": "C12",
   "status": "proved",
   "theorems": [
    "C12_report_iff_slack_modified",
    "C12_report_is_first_modified_byte",
    "C12_no_false_alarm",
    "C12_same_value_write_refuted"
   ],
   "note": "Memory as a byte map. A write of the canary value itself is invisible (listed as refuted)."
  },
  {
   "property": "C13",
   "status": "proved",
   "theorems": [
    "C13_release_report",
    "C13_unknown_pointer",
    "C13_known"
   ],
   "note": ""
  },
  {
   "property": "C14",
   "status": "proved",
   "theorems": [
    "C14_leak_report",
    "C14_violations_first"
   ],
   "note": ""
  },
  {
   "property": "C15",
   "status": "proved",
   "theorems": [
    "C15_limit_never_exceeded",
    "C15_refused_iff_exceeding",
    "C15_after_double_free_refuted",
    "C15_huge_request_refuted"
   ],
   "note": "limits of 2^63 and above and requests of 2^52 bytes and above are outside the theorem; two refutations show why the double-free and size conditions are needed"
  },
  {
   "property": "C16",
   "status": "proved",
   "theorems": [
    "C16_realloc",
    "C16_failed_realloc_refuted"
   ],
   "note": "failed reallocation: refuted"
  },
  {
   "property": "C17",
   "status": "proved",
   "theorems": [
    "C17_jump",
    "C17_frame",
    "C17_undo",
    "C17_arm_jump"
   ],
   "note": "For all 64-bit addresses. mprotect is assumed to succeed; instruction semantics of the two jump forms are part of the specification."
  },
  {
   "property": "C18",
   "status": "proved",
   "theorems": [
    "C18_unstubbed_original",
    "C18_all_removed",
    "C18_adjacent_short_functions_refuted"
   ],
   "note": "All histories in which simultaneously stubbed functions are at least 12 bytes apart; the refutation shows the condition is needed."
  },
  {
   "property": "C19",
   "status": "proved",
   "theorems": [
    "C19_newest_in_force",
    "C19_which_function",
    "C19_takes_effect",
    "C19_alias_refuted",
    "C19_unnested_refuted"
   ],
   "note": "All properly nested histories without two names for one function in one scope; refutations show both conditions are needed."
  },
  {
   "property": "C20",
   "status": "proved",
   "theorems": [
    "C20_verdict",
    "C20_case_verdict",
    "C20_reversed_range_refuted"
   ],
   "note": "For all declarations with ordered bounds and all call sequences; reversed range refuted."
  },
  {
   "property": "C21",
   "status": "proved",
   "theorems": [
    "C21_charged",
    "C21_left_behind",
    "C21_unexpected",
    "C21_mismatch",
    "C21_overcall",
    "C21_mode",
    "C21_greedy",
    "C21_lazy",
    "C21_not_skipped",
    "C21_dispatch"
   ],
   "note": "For all declarations and call sequences, greedy or not, with and without continue-on-failure."
  },
  {
   "property": "C22",
   "status": "proved",
   "theorems": [
    "C22_every_case_once",
    "C22_counts",
    "C22_total",
    "C22_suite_reports"
   ],
   "note": "Bodies of cases are an oracle giving the final failed/warning flags; counters are unbounded integers; the order of each round is a parameter."
  },
  {
   "property": "C23",
   "status": "proved",
   "theorems": [
    "C23_early_stop"
   ],
   "note": "Same model as C22."
  },
  {
   "property": "C24",
   "status": "proved",
   "theorems": [
    "C24_exit_status",
    "C24_256_refuted",
    "C24_default_refuted"
   ],
   "note": "Proved for every run whose failure count is zero or not a multiple of 256; refuted at 256 failures and without the option (status is always 0)."
  },
  {
   "property": "C25",
   "status": "proved",
   "theorems": [
    "C25_cases",
    "C25_suite",
    "C25_hidden_refuted"
   ],
   "note": "For any wildcard matcher (parameter; the built-in one is C04). strcasestr/strcasecmp/strcspn are modelled in the C locale."
  },
  {
   "property": "C26",
   "status": "proved",
   "theorems": [
    "C26_rearranged",
    "C26_defined",
    "C26_by_key",
    "C26_reverse",
    "C26_random"
   ],
   "note": "Sorting on sequences (the pointer level is C06); sequence and line numbers are non-negative ints; rand() is an arbitrary sequence."
  },
  {
   "property": "C27",
   "status": "proved",
   "theorems": [
    "C27_next_run",
    "C27_next_round",
    "C27_file",
    "C27_only_last_failed",
    "C27_long_name_refuted"
   ],
   "note": "Suite names distinct, file+name of the cases of a suite distinct, suites not empty, fewer than 2^28 cases. The file system is represented by the contents of .last_order."
  },
  {
   "property": "C28",
   "status": "proved",
   "theorems": [
    "C28_gone",
    "C28_gone_end",
    "C28_body",
    "C28_global",
    "C28_global_end",
    "C28_first_suite",
    "C28_first_suite_gone",
    "C28_unstub",
    "C28_suite_setup_refuted",
    "C28_case_cleanup_refuted"
   ],
   "note": "Whole-run event model of h2_runner::enumerate/main with attribution and clearing of the lists; user code is an arbitrary list of install/unstub actions per place. Two refutations for code outside cases."
  },
  {
   "property": "C29",
   "status": "proved",
   "theorems": [
    "C29_truth",
    "C29_not",
    "C29_context",
    "C29_demorgan_and",
    "C29_demorgan_or",
    "C29_exclamations"
   ],
   "note": "Base matchers are arbitrary predicates of value and string flags that conclude through C::fit."
  },
  {
   "property": "C30",
   "status": "proved",
   "theorems": [
    "C30_verdict",
    "C30_top",
    "C30_first",
    "C30_between",
    "C30_template",
    "C30_has_on_map",
    "C30_has_key",
    "C30_has_value",
    "C30_has_entry",
    "C30_limit_refuted",
    "C30_nested_times_refuted",
    "C30_not_a_pair_refuted",
    "C30_listof_length_refuted",
    "C30_countof_range_refuted",
    "C30_pointer_range_refuted"
   ],
   "note": "Values are numbers, strings, pairs, sequences and maps; AvgOf (floating point) is not modelled."
  },
  {
   "property": "C31",
   "status": "proved",
   "theorems": [
    "C31_odd",
    "C31_none",
    "C31_even_refuted"
   ],
   "note": "Integer elements."
  },
  {
   "property": "C32",
   "status": "proved",
   "theorems": [
    "C32_complement",
    "C32_ok",
    "C32_one",
    "C32_count",
    "C32_keeps"
   ],
   "note": ""
  },
  {
   "property": "C33",
   "status": "proved",
   "theorems": [
    "C33_preorder",
    "C33_once",
    "C33_sibling",
    "C33_sibling_order",
    "C33_child",
    "C33_release",
    "C33_second_child_refuted",
    "C33_allof",
    "C33_noneof",
    "C33_listof",
    "C33_anyof",
    "C33_and",
    "C33_or",
    "C33_pair",
    "C33_every"
   ],
   "note": ""
  },
  {
   "property": "C34",
   "status": "proved",
   "theorems": [
    "C34_buffer",
    "C34_literal",
    "C34_bytes",
    "C34_no_size_refuted",
    "C34_overflow_refuted",
    "C34_text_read_refuted"
   ],
   "note": "Buffers are lists of bytes; n*w below 2^64."
  },
  {
   "property": "C35",
   "status": "proved",
   "theorems": [
    "C35_decode",
    "C35_literal",
    "C35_prefix_blank_refuted",
    "C35_prefix_refuted"
   ],
   "note": "Actual buffer longer than the literal's text (the code runs strcmp first)."
  },
  {
   "property": "C36",
   "status": "proved",
   "theorems": [
    "C36_parses",
    "C36_every_value",
    "C36_unambiguous",
    "C36_numbers",
    "C36_call_refuted",
    "C36_unclosed",
    "C36_doubled",
    "C36_trailing_comma_refuted",
    "C36_stray_refuted"
   ],
   "note": "Numbers are an abstract domain evaluated by the arithmetic of C41; the text grammar is JsonSpec.jtext. Refutations: commas in calls, trailing comma, stray bracket."
  },
  {
   "property": "C37",
   "status": "proved",
   "theorems": [
    "C37_ends",
    "C37_throws",
    "C37_throws_refuted"
   ],
   "note": "Termination and the place of exceptions for every text and every number evaluator; the exceptions themselves are C37_throws_refuted. Stack depth is not modelled."
  },
  {
   "property": "C38",
   "status": "proved",
   "theorems": [
    "C38_match",
    "C38_texts",
    "C38_refused",
    "C38_actual_order",
    "C38_expect_order",
    "C38_self",
    "C38_extra",
    "C38_absent",
    "C38_duplicates_refuted"
   ],
   "note": "Number nearness and pattern match are parameters. Independence of key order is proved at every depth, under unique keys for the actual side; with duplicate keys it is refuted."
  },
  {
   "property": "C39",
   "status": "proved",
   "theorems": [
    "C39_text",
    "C39_found",
    "C39_missing",
    "C39_null",
    "C39_null_refuted",
    "C39_bracket_refuted"
   ],
   "note": "Path texts to steps, and found/missing/null node exactly characterised; the null dereference and the bracket inside a quoted key are refutations."
  },
  {
   "property": "C40",
   "status": "proved",
   "theorems": [
    "C40_similar",
    "C40_left",
    "C40_right",
    "C40_pairs",
    "C40_rows",
    "C40_run",
    "C40_shown",
    "C40_short",
    "C40_one_line",
    "C40_colours",
    "C40_alone",
    "C40_fold_refuted",
    "C40_order_refuted",
    "C40_caseless_refuted"
   ],
   "note": "similarity scores are an arbitrary function; number formatting is a parameter (std::to_string); three refuted parts are named *_refuted"
  },
  {
   "property": "C41",
   "status": "proved",
   "theorems": [
    "C41_value",
    "C41_unambiguous",
    "C41_expressible",
    "C41_accepted",
    "C41_terminates",
    "C41_minus_power_refuted",
    "C41_power_left_refuted",
    "C41_factorial",
    "C41_arrangements",
    "C41_factorial_refuted",
    "C41_arrangements_refuted"
   ],
   "note": "tokens and grammar over an abstract number domain (alg); strtod's extent is modelled, its value is the literal's in the domain; hexadecimal literals are modelled but not in the printed forms of C41_value (C41_accepted covers them); C(n,m), floating point rounding and library functions are not modelled"
  },
  {
   "property": "C42",
   "status": "proved",
   "theorems": [
    "C42_unescape",
    "C42_backslash_refuted"
   ],
   "note": "Escapes b f n r t and the double quote; uXXXX escapes are not handled by the code."
  },
  {
   "property": "C43",
   "status": "proved",
   "theorems": [
    "C43_replaced",
    "C43_unique",
    "C43_empty_refuted"
   ],
   "note": ""
  },
  {
   "property": "C44",
   "status": "proved",
   "theorems": [
    "C44_squashed",
    "C44_solid",
    "C44_fixed",
    "C44_idempotent",
    "C44_nul_refuted"
   ],
   "note": ""
  },
  {
   "property": "C45",
   "status": "proved",
   "theorems": [
    "C45_break",
    "C45_width",
    "C45_wide_refuted",
    "C45_truncated_refuted"
   ],
   "note": "Width 2 for every multi-byte character, as the library measures it. Outside the preconditions: C45_wide_refuted (padding underflow), C45_truncated_refuted (read beyond the word)."
  },
  {
   "property": "C46",
   "status": "proved",
   "theorems": [
    "C46_found",
    "C46_error",
    "C46_fits",
    "C46_equal_refuted",
    "C46_long_refuted"
   ],
   "note": "The wording of the error message is not modelled, only its kind, the alternatives listed and its length."
  },
  {
   "property": "C47",
   "status": "proved",
   "theorems": [
    "C47_terminates",
    "C47_append",
    "C47_ignored",
    "C47_written",
    "C47_defaults",
    "C47_double_free_refuted",
    "C47_long_refuted",
    "C47_cluster_refuted",
    "C47_initial",
    "C47_help",
    "C47_unknown",
    "C47_refused"
   ],
   "note": "-h and -? exit and are outside the written form; numbers beyond INT_MAX (atoi) are outcome Undefined."
  },
  {
   "property": "C48",
   "status": "proved",
   "theorems": [
    "C48_getaddrinfo",
    "C48_gethostbyname",
    "C48_one_name",
    "C48_overrun_refuted",
    "C48_unterminated_refuted",
    "C48_one_letter_refuted"
   ],
   "note": "inet_pton is a parameter; the three exceptions are proved as refutations"
  },
  {
   "property": "C49",
   "status": "proved",
   "theorems": [
    "C49_sent",
    "C49_conserved",
    "C49_selected",
    "C49_order",
    "C49_first",
    "C49_accept",
    "C49_reply",
    "C49_attributes",
    "C49_unnamed",
    "C49_short_buffer_refuted",
    "C49_accept_order_refuted",
    "C49_stale_peer_refuted",
    "C49_nonblocking_refuted",
    "C49_blocking_refuted"
   ],
   "note": "local addresses and blocking flags come with the calls; the five exceptions are proved as refutations"
  },
  {
   "property": "C50",
   "status": "proved",
   "theorems": [
    "C50_captured",
    "C50_determined",
    "C50_ended",
    "C50_counted",
    "C50_shown",
    "C50_parted",
    "C50_quiet",
    "C50_verbosity",
    "C50_returned",
    "C50_nul_refuted",
    "C50_nested_refuted",
    "C50_fwrite_refuted",
    "C50_fputc_refuted",
    "C50_syslog_refuted",
    "C50_empty_refuted"
   ],
   "note": "formatting itself (vsnprintf) is a parameter; the six exceptions are proved as refutations"
  },
  {
   "property": "C51",
   "status": "proved",
   "theorems": [
    "C51_plain",
    "C51_written",
    "C51_same_text",
    "C51_nested",
    "C51_brushed",
    "C51_reset",
    "C51_same_style_refuted",
    "C51_overlap_refuted",
    "C51_ninth_refuted",
    "C51_prefix_refuted",
    "C51_unknown_refuted",
    "C51_long_refuted"
   ],
   "note": "The terminal is part of the specification (SGR sequences only)."
  },
  {
   "property": "C52",
   "status": "proved",
   "theorems": [
    "C52_footprint_is_peak"
   ],
   "note": ""
  },
  {
   "property": "C53",
   "status": "proved",
   "theorems": [
    "C53_contents",
    "C53_calloc",
    "C53_calloc_overflow_refuted"
   ],
   "note": "calloc overflow: refuted"
  },
  {
   "property": "C54",
   "status": "proved",
   "theorems": [
    "C54_use_after_free",
    "C54_guard_write",
    "C54_first_offence",
    "C54_guard_read_refuted"
   ],
   "note": "guard page reads: refuted"
  },
  {
   "property": "C55",
   "status": "proved",
   "theorems": [
    "C55_temporary_restore",
    "C55_stub_during_call_refuted"
   ],
   "note": "Holds when the routine makes no stub changes on the function; a stub placed during the call is lost (refutation)."
  },
  {
   "property": "C56",
   "status": "proved",
   "theorems": [
    "C56_grouped",
    "C56_leading",
    "C56_arguments"
   ],
   "note": "For all chains that start with an explicit expectation."
  },
  {
   "property": "C57",
   "status": "proved",
   "theorems": [
    "C57_verdict",
    "C57_warning",
    "C57_course",
    "C57_exception",
    "C57_exception_in_cleanup",
    "C57_report",
    "C57_global_setup_refuted",
    "C57_exception_cleanup_refuted",
    "C57_cleanup_fails_refuted",
    "C57_setup_fails_refuted"
   ],
   "note": "Control flow of the SUITE/Setup/Cleanup/Case macros with setjmp/longjmp and exceptions as explicit outcomes; four refutations. setjmp/longjmp taken as the jumps the macros intend."
  },
  {
   "property": "C58",
   "status": "proved",
   "theorems": [
    "C58_describe",
    "C58_long_refuted"
   ],
   "note": "strtok and isspace modelled in the C locale."
  },
  {
   "property": "C59",
   "status": "proved",
   "theorems": [
    "C59_warning_prefix",
    "C59_throw_refuted",
    "C59_leftover"
   ],
   "note": "Sequence model of h2_warning and h2_assert::failing; one refutation."
  },
  {
   "property": "C60",
   "status": "proved",
   "theorems": [
    "C60_binary",
    "C60_text",
    "C60_newline_refuted"
   ],
   "note": ""
  },
  {
   "property": "C61",
   "status": "proved",
   "theorems": [
    "C61_rows"
   ],
   "note": "The formatted row number is a parameter (sprintf); it only must not look like a style word."
  },
  {
   "property": "C62",
   "status": "proved",
   "theorems": [
    "C62_fits",
    "C62_shortened",
    "C62_width",
    "C62_wide_refuted"
   ],
   "note": "Widths below 3 + tail (size_t wraps) are not modelled. C62_wide_refuted: dots missing."
  },
  {
   "property": "C63",
   "status": "proved",
   "theorems": [
    "C63_printed",
    "C63_select",
    "C63_quote_refuted",
    "C63_empty_key_refuted"
   ],
   "note": "std::to_string is a parameter of the model; the padding and backslashes that dump adds for a source quote are not modelled"
  },
  {
   "property": "C64",
   "status": "proved",
   "theorems": [
    "C64_operators",
    "C64_mixed",
    "C64_eq_exact",
    "C64_ok2",
    "C64_ok2_fits",
    "C64_bool",
    "C64_wrap_refuted",
    "C64_narrow_refuted",
    "C64_neither_refuted",
    "C64_mixed_refuted"
   ],
   "note": ""
  },
  {
   "property": "C65",
   "status": "proved",
   "theorems": [
    "C65_default",
    "C65_absolute",
    "C65_percent",
    "C65_large_refuted",
    "C65_percent_refuted"
   ],
   "note": ""
  },
  {
   "property": "C66",
   "status": "proved",
   "theorems": [
    "C66_range",
    "C66_no_end",
    "C66_empty",
    "C66_sentinel_refuted"
   ],
   "note": ""
  },
  {
   "property": "C67",
   "status": "proved",
   "theorems": [
    "C67_equal",
    "C67_eq",
    "C67_substr",
    "C67_starts",
    "C67_ends",
    "C67_wildcard",
    "C67_squash_equal",
    "C67_squash_eq",
    "C67_squash_find",
    "C67_words",
    "C67_squash_pattern",
    "C67_squash_pattern_refuted",
    "C67_pointers",
    "C67_pointer_string",
    "C67_null_expected",
    "C67_null_string",
    "C67_null_actual",
    "C67_null_refuted"
   ],
   "note": "Bytes; letters are ASCII. Regular expressions (Re) are left to std::regex and not modelled."
  },
  {
   "property": "C68",
   "status": "proved",
   "theorems": [
    "C68_reads",
    "C68_run",
    "C68_quote_refuted",
    "C68_zeros",
    "C68_numbers_refuted",
    "C68_stale_refuted",
    "C68_todo_refuted"
   ],
   "note": "XML reader written independently; names with XML-special characters excluded and refuted"
  },
  {
   "property": "C69",
   "status": "proved",
   "theorems": [
    "C69_rows",
    "C69_number",
    "C69_each",
    "C69_listing",
    "C69_rounds_refuted",
    "C69_tags_refuted"
   ],
   "note": "totals and tag lines for at most 1024 different tags; beyond that and over several rounds refuted"
  },
  {
   "property": "C70",
   "status": "proved",
   "theorems": [
    "C70_screen",
    "C70_run",
    "C70_last",
    "C70_quiet",
    "C70_todo_refuted",
    "C70_verbosity_refuted",
    "C70_rounds_refuted",
    "C70_units_refuted"
   ],
   "note": "texts of explanations and fitting to the width of the terminal are given; parts that are false are stated as refuted"
  },
  {
   "property": "C71",
   "status": "proved",
   "theorems": [
    "C71_numbers",
    "C71_bits",
    "C71_numbers_unbroken",
    "C71_bits_unbroken",
    "C71_colours",
    "C71_wide_colours",
    "C71_bit_colours",
    "C71_distinct",
    "C71_uint64_refuted",
    "C71_widths_refuted"
   ],
   "note": "colours are those of the lines before they are put side by side; C45 says that breaking lines keeps them"
  },
  {
   "property": "C72",
   "status": "proved",
   "theorems": [
    "C72_compare",
    "C72_find",
    "C72_space_refuted",
    "C72_escape_refuted"
   ],
   "note": "parts that are false are stated as refuted"
  },
  {
   "property": "C73",
   "status": "proved",
   "theorems": [
    "C73_two",
    "C73_two_none",
    "C73_two_arguments",
    "C73_greater",
    "C73_less",
    "C73_one_none",
    "C73_template",
    "C73_arrow_refuted",
    "C73_shift_refuted",
    "C73_quote_refuted"
   ],
   "note": "parts that are false are stated as refuted"
  },
  {
   "property": "C74",
   "status": "proved",
   "theorems": [
    "C74_two",
    "C74_one",
    "C74_json",
    "C74_inner",
    "C74_normal",
    "C74_empty_refuted",
    "C74_json_refuted"
   ],
   "note": "parts that are false are stated as refuted"
  },
  {
   "property": "C75",
   "status": "proved",
   "theorems": [
    "C75_written",
    "C75_values",
    "C75_flags",
    "C75_word_refuted",
    "C75_expression_refuted",
    "C75_overrun_refuted"
   ],
   "note": "parts that are false are stated as refuted; strtod is a parameter, what is assumed of it is the hypothesis reads, met by simple_real"
  },
  {
   "property": "C76",
   "status": "proved",
   "theorems": [
    "C76_symbols",
    "C76_underscore",
    "C76_exact",
    "C76_scoped",
    "C76_ambiguous",
    "C76_nameless",
    "C76_exempt_exact",
    "C76_exempt_scoped",
    "C76_pointer",
    "C76_address",
    "C76_object",
    "C76_method",
    "C76_abstract",
    "C76_no_vtable",
    "C76_anonymous_refuted",
    "C76_same_refuted",
    "C76_long_refuted",
    "C76_overrun_refuted",
    "C76_typeinfo_refuted"
   ],
   "note": "parts that are false are stated as refuted; names are assumed not to begin with a colon (sound)"
  },
  {
   "property": "C77",
   "status": "proved",
   "theorems": [
    "C77_leak",
    "C77_double_free",
    "C77_asymmetric",
    "C77_overflow",
    "C77_use_after_free",
    "C77_exception",
    "C77_symbol",
    "C77_far_refuted"
   ],
   "note": "the part that is false is stated as refuted"
  },
  {
   "property": "C78",
   "status": "proved",
   "theorems": [
    "C78_line",
    "C78_one",
    "C78_parenthesis_refuted",
    "C78_in",
    "C78_exempt",
    "C78_many_refuted",
    "C78_equal",
    "C78_texts",
    "C78_path_refuted",
    "C78_readable_refuted"
   ],
   "note": "the parts that are false are stated as refuted"
  },
  {
   "property": "C79",
   "status": "proved",
   "theorems": [
    "C79_shown",
    "C79_distinct",
    "C79_nul_refuted",
    "C79_long_refuted",
    "C79_small_refuted"
   ],
   "note": "the parts that are false are stated as refuted"
  },
  {
   "property": "C80",
   "status": "proved",
   "theorems": [
    "C80_says",
    "C80_one_reading",
    "C80_same",
    "C80_elements",
    "C80_list",
    "C80_keyed",
    "C80_two",
    "C80_custom",
    "C80_range",
    "C80_near",
    "C80_bare",
    "C80_plain_refuted",
    "C80_case_refuted",
    "C80_pair_refuted",
    "C80_stars_refuted"
   ],
   "note": "the parts that are false are stated as refuted"
  },
  {
   "property": "C81",
   "status": "proved",
   "theorems": [
    "C81_watched",
    "C81_begins",
    "C81_all",
    "C81_leaks",
    "C81_ends",
    "C81_installed",
    "C81_off",
    "C81_help_refuted",
    "C81_nested_refuted",
    "C81_left_refuted",
    "C81_cleanup_refuted"
   ],
   "note": "the parts that are false are stated as refuted"
  },
  {
   "property": "C82",
   "status": "proved",
   "theorems": [
    "C82_ideal",
    "C82_defined",
    "C82_verdict",
    "C82_left_refuted",
    "C82_return_refuted",
    "C82_try_refuted",
    "C82_nested_refuted"
   ],
   "note": "the parts that are false are stated as refuted"
  },
  {
   "property": "C83",
   "status": "proved",
   "theorems": [
    "C83_foreach",
    "C83_foreach_many",
    "C83_limit_refuted",
    "C83_fullmesh",
    "C83_square",
    "C83_repeat",
    "C83_cases",
    "C83_casess",
    "C83_casess_square",
    "C83_each",
    "C83_each_pair",
    "C83_count",
    "C83_empty",
    "C83_head",
    "C83_tail",
    "C83_last",
    "C83_an",
    "C83_xan",
    "C83_yan",
    "C83_parentheses",
    "C83_bare_refuted"
   ],
   "note": "the numbers after the 33rd value and lists without parentheses are stated as refuted"
  },
  {
   "property": "C84",
   "status": "proved",
   "theorems": [
    "C84_registered",
    "C84_tests",
    "C84_each_once",
    "C84_cleanup",
    "C84_endless",
    "C84_cases_cleanup_refuted",
    "C84_cleanup_behind_refuted",
    "C84_types_refuted"
   ],
   "note": "Cases behind Cleanup, Cleanup behind a case and values of several types are stated as refuted"
  },
  {
   "property": "C85",
   "status": "proved",
   "theorems": [
    "C85_literal",
    "C85_straight",
    "C85_defined",
    "C85_failure",
    "C85_short",
    "C85_columns",
    "C85_malformed",
    "C85_double_refuted",
    "C85_backslash_refuted",
    "C85_default_refuted"
   ],
   "note": "plain double quotes, backslash and newline in strings, and missing quotes are stated as refuted"
  },
  {
   "property": "C86",
   "status": "proved",
   "theorems": [
    "C86_check",
    "C86_argument",
    "C86_nested_refuted",
    "C86_unexpected",
    "C86_ordinal",
    "C86_ordinal_refuted"
   ],
   "note": "the ordinal from the twenty-first on and the marked argument below composed matchers are stated as refuted"
  },
  {
   "property": "C87",
   "status": "proved",
   "theorems": [
    "C87_follow",
    "C87_on_the_way",
    "C87_processor",
    "C87_patch",
    "C87_page_before_refuted",
    "C87_near_before_refuted",
    "C87_register_refuted"
   ],
   "note": "tables and literals that lie before the code and the register of the branch are stated as refuted"
  },
  {
   "property": "C88",
   "status": "proved",
   "theorems": [
    "C88_oldest",
    "C88_passes",
    "C88_size",
    "C88_parts",
    "C88_missing",
    "C88_counted",
    "C88_me",
    "C88_short_refuted",
    "C88_longer_refuted"
   ],
   "note": "reading behind a short packet and acceptance of a longer one are stated as refuted"
  },
  {
   "property": "C89",
   "status": "proved",
   "theorems": [
    "C89_verdict",
    "C89_once",
    "C89_strict_refuted",
    "C89_shown_refuted"
   ],
   "note": "the wording of the message at the limit is stated as refuted"
  },
  {
   "property": "C90",
   "status": "proved",
   "theorems": [
    "C90_run",
    "C90_told",
    "C90_others",
    "C90_bodies",
    "C90_around",
    "C90_suites",
    "C90_opened",
    "C90_global",
    "C90_counts",
    "C90_reports_refuted",
    "C90_list_refuted",
    "C90_reverse_refuted",
    "C90_many_refuted"
   ],
   "note": "dropped reports and hooks, hooks of suites in list mode and the order of cleanups are stated as refuted"
  },
  {
   "property": "C91",
   "status": "proved",
   "theorems": [
    "C91_even",
    "C91_odd",
    "C91_divable",
    "C91_undefined",
    "C91_mixed_refuted",
    "C91_mixed_passes_refuted",
    "C91_integer",
    "C91_nan",
    "C91_infinite_refuted",
    "C91_file",
    "C91_missing_refuted",
    "C91_special_refuted"
   ],
   "note": "mixed signedness, infinities, missing and special files are stated as refuted"
  },
  {
   "property": "C92",
   "status": "proved",
   "theorems": [
    "C92_calm",
    "C92_unchanged",
    "C92_history",
    "C92_copy",
    "C92_twice",
    "C92_loop",
    "C92_independent_refuted",
    "C92_contradiction_refuted",
    "C92_declared_refuted",
    "C92_order_refuted"
   ],
   "note": "sticky operators on variables are characterised exactly; the intuitive claims they break are stated as refuted"
  },
  {
   "property": "C93",
   "status": "proved",
   "theorems": [
    "C93_all",
    "C93_first",
    "C93_determined",
    "C93_nested",
    "C93_nested_refuted",
    "C93_left_refuted"
   ],
   "note": "nested blocks are characterised exactly; the intuitive claims they break are stated as refuted"
  },
  {
   "property": "C94",
   "status": "proved",
   "theorems": [
    "C94_leaf",
    "C94_kinds",
    "C94_itself",
    "C94_search",
    "C94_search_none",
    "C94_rows",
    "C94_unique",
    "C94_unrelated",
    "C94_renamed",
    "C94_numbers_refuted",
    "C94_greedy_refuted",
    "C94_range_refuted"
   ],
   "note": "scores are exact rationals; the code computes them in double"
  },
  {
   "property": "C95",
   "status": "proved",
   "theorems": [
    "C95_whole",
    "C95_part",
    "C95_missing",
    "C95_null",
    "C95_doubled",
    "C95_doubled_expectation",
    "C95_unclosed",
    "C95_asserted",
    "C95_assertion",
    "C95_ko_refuted",
    "C95_quote_refuted",
    "C95_empty_refuted"
   ],
   "note": "number parsing, printing and comparison are parameters; a selected number must be printed exactly (premise showable)"
  },
  {
   "property": "C96",
   "status": "proved",
   "theorems": [
    "C96_parsed",
    "C96_without_port",
    "C96_shown",
    "C96_round_trip",
    "C96_received",
    "C96_accepted",
    "C96_sent",
    "C96_answered",
    "C96_replied",
    "C96_pattern_sender",
    "C96_connected",
    "C96_served",
    "C96_waits",
    "C96_null_refuted",
    "C96_name_refuted"
   ],
   "note": "inet_pton and inet_ntop are parameters assumed to read and write dotted addresses; an instance is given"
  },
  {
   "property": "C97",
   "status": "proved",
   "theorems": [
    "C97_verdict",
    "C97_crash",
    "C97_operators",
    "C97_ranges",
    "C97_pointee_range_refuted",
    "C97_guard_refuted"
   ],
   "note": "expressions with ranges or numbers of times are covered by C97_ranges only; base matchers, members and conversions are arbitrary pure functions"
  },
  {
   "property": "C98",
   "status": "proved",
   "theorems": [
    "C98_matcher",
    "C98_message",
    "C98_six_refuted",
    "C98_member",
    "C98_method",
    "C98_braced"
   ],
   "note": "what H2MATCHER0 to H2MATCHER5 themselves declare is left as written"
  },
  {
   "property": "C99",
   "status": "proved",
   "theorems": [
    "C99_stub",
    "C99_stub_source",
    "C99_unstub",
    "C99_unstub_source",
    "C99_unstubs",
    "C99_stubs",
    "C99_stubs_result_refuted",
    "C99_mock",
    "C99_mocks",
    "C99_catch",
    "C99_dns"
   ],
   "note": "#x is written H2_SPELLED(x); __COUNTER__ and H2_FILINE are left as they are written"
  },
  {
   "property": "C100",
   "status": "proved",
   "theorems": [
    "C100_condition",
    "C100_compare",
    "C100_comma_refuted",
    "C100_json",
    "C100_eq",
    "C100_me",
    "C100_unmem",
    "C100_block",
    "C100_cout",
    "C100_parts"
   ],
   "note": "#x is written H2_SPELLED(x); H2PP_UNIQUE() and H2_FILINE are left as they are written"
  },
  {
   "property": "C101",
   "status": "proved",
   "theorems": [
    "C101_counted",
    "C101_does",
    "C101_inside",
    "C101_in_force",
    "C101_off",
    "C101_goes_on",
    "C101_steady",
    "C101_recursion_refuted",
    "C101_cleanup_refuted"
   ],
   "note": "longjmp is taken to run no destructors; user code does not itself stub or mock meanwhile"
  },
  {
   "property": "C102",
   "status": "proved",
   "theorems": [
    "C102_calendar",
    "C102_date",
    "C102_mktime",
    "C102_mktime_refuted",
    "C102_text",
    "C102_text_refuted",
    "C102_text_r",
    "C102_installed",
    "C102_without"
   ],
   "note": "the functions are taken not to begin with a jump where they are; two details refuted"
  },
  {
   "property": "C103",
   "status": "proved",
   "theorems": [
    "C103_one_meaning",
    "C103_as_written",
    "C103_compiles",
    "C103_comparison",
    "C103_verdict",
    "C103_true_refuted",
    "C103_false_refuted",
    "C103_unequal_refuted"
   ],
   "note": "an operator that neither h2_0cp, h2_1cp nor h2_2cp has is taken as an error of the compiler; assignment and ?: not modelled; three pairs of integers refuted"
  },
  {
   "property": "C104",
   "status": "proved",
   "theorems": [
    "C104_prints",
    "C104_aligned",
    "C104_letters",
    "C104_once",
    "C104_arguments",
    "C104_given",
    "C104_verbose",
    "C104_lists",
    "C104_quotes",
    "C104_fields",
    "C104_warnings",
    "C104_double_free_refuted",
    "C104_alphabet_refuted",
    "C104_fold_refuted"
   ],
   "note": "the text is transcribed with ~ for \\033 and ^ for \\n; three statements of the help are refuted"
  }
 ]
}