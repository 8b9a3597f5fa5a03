{
 "claims": [
  {
   "property": "C01",
   "status": "proved",
   "theorems": [
    "C01_gc_preserves_live_values",
    "C01_gc_after_vector_to_list_refuted"
   ],
   "note": "Holds for every well-formed heap (distinct live objects do not overlap). vector->list breaks that precondition and the collector then aborts: refuted witness."
  },
  {
   "property": "C02",
   "status": "proved",
   "theorems": [
    "C02_gc_preserves_identity"
   ],
   "note": ""
  },
  {
   "property": "C03",
   "status": "proved",
   "theorems": [
    "C03_gc_keeps_constants"
   ],
   "note": ""
  },
  {
   "property": "C04",
   "status": "proved",
   "theorems": [
    "C04_gc_reclaims_exactly_garbage"
   ],
   "note": ""
  },
  {
   "property": "C05",
   "status": "proved",
   "theorems": [
    "C05_gc_terminates_within_memory",
    "C05_live_data_below_jam_has_room",
    "C05_gc_check",
    "C05_gc_overruns_arena_refuted"
   ],
   "note": "Holds when the live data fits behind the cells in use; without that room the collector writes outside the arena: refuted witness."
  },
  {
   "property": "C06",
   "status": "proved",
   "theorems": [
    "C06_collections_are_transparent",
    "C06_every_schedule",
    "C06_no_undefined_behaviour"
   ],
   "note": "Clients are interaction trees over the library calls; any two schedules that do not exhaust memory give the same answers; a static bound on the client's calls rules exhaustion out for all schedules."
  },
  {
   "property": "C07",
   "status": "proved",
   "theorems": [
    "C07_alloc_fresh",
    "C07_alloc_full",
    "C07_history_disjoint",
    "C07_bytes_fit",
    "C07_make_bytes",
    "C07_make_cell",
    "C07_make_cell_full"
   ],
   "note": "allocation is fresh, disjoint over every history, large enough, and aborts when the arena is used up"
  },
  {
   "property": "C08",
   "status": "proved",
   "theorems": [
    "C08_frame_restores",
    "C08_outcome"
   ],
   "note": "balanced frame programs restore registers and stack; only outcomes are success and STACK FULL"
  },
  {
   "property": "C09",
   "status": "proved",
   "theorems": [
    "C09_cons_car_cdr",
    "C09_set_car",
    "C09_set_cdr",
    "C09_car_of_non_pair",
    "C09_cdr_of_non_pair",
    "C09_set_car_of_non_pair",
    "C09_set_cdr_of_non_pair"
   ],
   "note": ""
  },
  {
   "property": "C10",
   "status": "proved",
   "theorems": [
    "C10_length",
    "C10_length_improper"
   ],
   "note": ""
  },
  {
   "property": "C11",
   "status": "proved",
   "theorems": [
    "C11_append2",
    "C11_append2_lists",
    "C11_append2_non_list"
   ],
   "note": ""
  },
  {
   "property": "C12",
   "status": "proved",
   "theorems": [
    "C12_reverse",
    "C12_reverse_lists",
    "C12_reverse_non_list"
   ],
   "note": ""
  },
  {
   "property": "C13",
   "status": "proved",
   "theorems": [
    "C13_assq",
    "C13_memq",
    "C13_assoc",
    "C13_last_pair",
    "C13_xassq",
    "C13_mixed_keys_refuted"
   ],
   "note": "the unrestricted claim is false for number keys against character keys: C13_mixed_keys_refuted"
  },
  {
   "property": "C14",
   "status": "proved",
   "theorems": [
    "C14_eq",
    "C14_equal",
    "C14_datum_unique"
   ],
   "note": ""
  },
  {
   "property": "C15",
   "status": "proved",
   "theorems": [
    "C15_make_vector",
    "C15_list_to_vector",
    "C15_vector_to_list",
    "C15_round_trip",
    "C15_vector_length",
    "C15_history",
    "C15_index_too_large",
    "C15_negative_index_refuted"
   ],
   "note": "Too-large indexes stop the program with an error; C15_negative_index_refuted shows that negative ones are not caught by vector-set!/vector-ref."
  },
  {
   "property": "C16",
   "status": "proved",
   "theorems": [
    "C16_make_struct",
    "C16_struct_length",
    "C16_history",
    "C16_index_too_large",
    "C16_type_checked"
   ],
   "note": ""
  },
  {
   "property": "C17",
   "status": "proved",
   "theorems": [
    "C17_string_to_list",
    "C17_list_to_string",
    "C17_round_trip_string",
    "C17_round_trip_list",
    "C17_string_append",
    "C17_string_length",
    "C17_string_equal",
    "C17_string_ref",
    "C17_string_ref_range",
    "C17_string_ref_high_refuted",
    "C17_string_ref_end_refuted",
    "C17_too_long_refuted"
   ],
   "note": "The _refuted theorems show what the code does outside the claim: bytes from 128 on come back from string-ref as negative characters, index = length is accepted, and lists of MAX_STRING or more characters overrun the buffer."
  },
  {
   "property": "C18",
   "status": "proved",
   "theorems": [
    "C18_intern",
    "C18_history",
    "C18_symbol_to_string",
    "C18_false_refuted"
   ],
   "note": "interning any sequence of names yields identical symbols exactly for equal names; the name \"#f\" is the one exception (C18_false_refuted); names whose hash is negative (a high byte among the first two) are covered by C19_high_byte_refuted"
  },
  {
   "property": "C19",
   "status": "proved",
   "theorems": [
    "C19_new_table",
    "C19_store",
    "C19_history_strings",
    "C19_history_symbols",
    "C19_other_table",
    "C19_default_refuted",
    "C19_high_byte_refuted"
   ],
   "note": "any history of stores and fetches answers like a finite map; stores leave other tables alone; two deviations of the code are proved as refutations: the default is lost, and keys starting with a high byte abort"
  },
  {
   "property": "C20",
   "status": "proved",
   "theorems": [
    "C20_history",
    "C20_redefinition_refuted"
   ],
   "note": "any history of definitions, global assignments and references answers like an environment over a global map; the clause that a re-definition is seen through a variable obtained earlier is false of module-define! and refuted"
  },
  {
   "property": "C21",
   "status": "proved",
   "theorems": [
    "C21_greater_chain",
    "C21_less_chain",
    "C21_equal_chain",
    "C21_chain_is_pairwise",
    "C21_order_type_error",
    "C21_equal_type_error_refuted"
   ],
   "note": "Arguments after the first are not type-checked by =: refuted witness."
  },
  {
   "property": "C22",
   "status": "proved",
   "theorems": [
    "C22_plus_exact",
    "C22_multiply_exact",
    "C22_minus_exact",
    "C22_negate",
    "C22_overflow_is_not_silent",
    "C22_type_error"
   ],
   "note": ""
  },
  {
   "property": "C23",
   "status": "proved",
   "theorems": [
    "C23_divide_positive",
    "C23_division_by_zero",
    "C23_modulo_by_zero",
    "C23_modulo_positive",
    "C23_modulo_negative",
    "C23_divide_negative_gives_zero",
    "C23_divide_is_quotient_refuted",
    "C23_modulo_floor_refuted"
   ],
   "note": "Positive divisors are right; for negative divisors the exact (wrong) results are proved and the division laws refuted."
  },
  {
   "property": "C24",
   "status": "proved",
   "theorems": [
    "C24_logand",
    "C24_logior",
    "C24_logxor",
    "C24_lognot",
    "C24_ash_left",
    "C24_ash_right",
    "C24_ash_out_of_range_is_undefined"
   ],
   "note": ""
  },
  {
   "property": "C25",
   "status": "proved",
   "theorems": [
    "C25_unsigned_division",
    "C25_signed_division",
    "C25_smallest_divisor_refuted"
   ],
   "note": "exact for every dividend and every nonzero divisor except the smallest negative one, whose wrong result is proved as a refutation"
  },
  {
   "property": "C26",
   "status": "proved",
   "theorems": [
    "C26_format",
    "C26_format_overruns",
    "C26_parse",
    "C26_round_trip",
    "C26_ultoa_refuted",
    "C26_hexadecimal_refuted",
    "C26_largest_int_refuted",
    "C26_other_base_refuted"
   ],
   "note": "formatting is exact up to the internal buffer's size and undefined beyond it; the round trip holds within the bounds stated and is refuted outside them"
  },
  {
   "property": "C27",
   "status": "proved",
   "theorems": [
    "C27_memcpy",
    "C27_memmove",
    "C27_memset",
    "C27_memcmp",
    "C27_memchr",
    "C27_memmem",
    "C27_strlen",
    "C27_strcmp",
    "C27_strncmp",
    "C27_strcpy",
    "C27_strncpy",
    "C27_strcat",
    "C27_strncat",
    "C27_strchr",
    "C27_strrchr",
    "C27_strcspn",
    "C27_strspn",
    "C27_strpbrk_found",
    "C27_strstr",
    "C27_strlwr_strupr",
    "C27_strchr_high_byte_refuted",
    "C27_memchr_high_byte_refuted",
    "C27_memcmp_strcmp_unsigned_refuted",
    "C27_strrchr_empty_refuted",
    "C27_strpbrk_none_refuted",
    "C27_strncpy_reads_past_limit_refuted"
   ],
   "note": "what each function does for all memories; where that differs from ISO C the difference is proved as a refutation"
  },
  {
   "property": "C28",
   "status": "proved",
   "theorems": [
    "C28_permutes",
    "C28_sorts_distinct",
    "C28_equal_elements_refuted"
   ],
   "note": "sorted order is false with equal elements: C28_equal_elements_refuted"
  },
  {
   "property": "C29",
   "status": "proved",
   "theorems": [
    "C29_transparent",
    "C29_in_order",
    "C29_second_pushback_refuted",
    "C29_failed_seek_refuted",
    "C29_seek_pushback_refuted",
    "C29_write_terminal_refuted",
    "C29_fread_short_refuted"
   ],
   "note": "for every file, buffer size, schedule of short reads and sequence of calls the specification permits; the refuted theorems show that the conditions are needed"
  },
  {
   "property": "C30",
   "status": "proved",
   "theorems": [
    "C30_history",
    "C30_env_of",
    "C30_overwrite_refuted",
    "C30_overrun_refuted",
    "C30_full_refuted",
    "C30_bad_name_refuted",
    "C30_duplicate_refuted"
   ],
   "note": "for every history under the conditions stated; the refuted theorems show where the code departs from a map"
  },
  {
   "property": "C31",
   "status": "proved",
   "theorems": [
    "C31_no_overrun",
    "C31_format",
    "C31_sprintf",
    "C31_terminator_refuted",
    "C31_zero_star_refuted",
    "C31_zero_sign_refuted",
    "C31_precision_refuted",
    "C31_left_zero_refuted",
    "C31_left_precision_refuted",
    "C31_string_precision_refuted",
    "C31_octal_refuted",
    "C31_char_width_refuted",
    "C31_unsupported_refuted",
    "C31_lone_percent_refuted"
   ],
   "note": "No overrun: every format, argument list and size for which the call returns. Output and returned count: every format built from the supported directives on the domain of FmtSpec.v; the refuted theorems show each restriction is needed. Floating point conversions are not modelled."
  },
  {
   "property": "C32",
   "status": "proved",
   "theorems": [
    "C32_write",
    "C32_write_read",
    "C32_long_refuted",
    "C32_char_refuted",
    "C32_symbol_refuted"
   ],
   "note": "for data that satisfy representable and no_circular; the refuted theorems show that the restrictions are needed"
  },
  {
   "property": "C33",
   "status": "proved",
   "theorems": [
    "C33_read",
    "C33_same_datum",
    "C33_layout_in_lists"
   ],
   "note": "input from a file descriptor"
  },
  {
   "property": "C34",
   "status": "proved",
   "theorems": [
    "C34_read_file",
    "C34_any_input",
    "C34_any_file",
    "C34_open_comment_refuted",
    "C34_open_string_refuted",
    "C34_return_refuted"
   ],
   "note": "result on all texts of data; termination and progress on all ASCII inputs with closed block comments and dots followed by a datum; refuted for unclosed comments, unclosed strings, and carriage returns outside of lists"
  },
  {
   "property": "C35",
   "status": "proved",
   "theorems": [
    "C35_evaluation",
    "C35_returned_number",
    "C35_returned_constant",
    "C35_operator_twice_refuted",
    "C35_define_inside_refuted"
   ],
   "note": "Every derivation of the big-step semantics (EvalSpec; 40 builtins on pairs, lists, numbers, characters and vectors in EvalPrimSpec) is followed by the evaluator, through any number of collections, and the caller's stack and registers are restored. Memory is assumed to last (roomy). Definitions in bodies and global variables found by name are part of the language; top-level definitions are the subject of C44; macros are in the evaluator model but outside the language."
  },
  {
   "property": "C36",
   "status": "proved",
   "theorems": [
    "C36_tail_calls",
    "C36_loop_constant_budget",
    "C35_evaluation"
   ],
   "note": "A loop by tail calls runs in 35 words of stack for every number of iterations; in general the stack needed is given by the budget of the derivation, which tail positions do not spend."
  },
  {
   "property": "C37",
   "status": "proved",
   "theorems": [
    "C37_call_receiver",
    "C37_capture",
    "C37_invoke",
    "C37_survives_collection",
    "C37_evaluation_keeps",
    "C37_escape_refuted"
   ],
   "note": "Capture saves exactly the stack; a call from any state and depth reinstates it, delivers the value, and leaves the continuation usable; collections and complete evaluations of core-language expressions keep it. Calls made while the receiver still runs are wrong in the code (C37_escape_refuted)."
  },
  {
   "property": "C38",
   "status": "proved",
   "theorems": [
    "C38_call_closure",
    "C38_closure_wrong_number",
    "C38_call_lambda",
    "C38_lambda_too_many",
    "C38_builtin_wrong_number",
    "C38_rest_wrong_number_refuted",
    "C38_lambda_too_few_refuted"
   ],
   "note": "The two cases in which the code signals not-a-pair instead of wrong-number-of-args are proved as they are (_refuted)."
  },
  {
   "property": "C39",
   "status": "proved",
   "theorems": [
    "C39_history",
    "C39_pointers_stay",
    "C39_out_of_memory_refuted",
    "C39_huge_refuted",
    "C39_calloc_refuted"
   ],
   "note": "for every history within the memory the kernel grants; requests beyond it are not noticed by the code: refuted theorems"
  },
  {
   "property": "C40",
   "status": "proved",
   "theorems": [
    "C40_int_to_bv",
    "C40_int_to_bv8",
    "C40_number_to_string",
    "C40_dec_to_hex",
    "C40_immediate",
    "C40_immediate8",
    "C40_immediate8_refuted",
    "C40_most_negative_refuted"
   ],
   "note": "the Scheme procedures are transcribed into calls of the modelled builtins; that the evaluator makes these calls is C35's subject"
  },
  {
   "property": "C41",
   "status": "proved",
   "theorems": [
    "C41_getopt",
    "C41_getopt_long",
    "C41_calls_determined",
    "C41_dash_dash_refuted",
    "C41_dash_dash_long_refuted",
    "C41_permute_refuted"
   ],
   "note": "the specification (GetoptSpec.v) is a relation between command lines and answers; it has exactly one meaning for each command line. getopt_long_only is modelled but not part of the theorem."
  },
  {
   "property": "C42",
   "status": "proved",
   "theorems": [
    "C42_readdir"
   ],
   "note": "for every grouping of the entries by the kernel and every end, regular or by an error"
  },
  {
   "property": "C43",
   "status": "proved",
   "theorems": [
    "C43_first_directory",
    "C43_nowhere",
    "C43_execvp",
    "C43_execvp_first",
    "C43_execl",
    "C43_execlp",
    "C43_nowhere_refuted",
    "C43_nowhere_undefined",
    "C43_empty_element_refuted",
    "C43_no_path_undefined",
    "C43_execl_refuted",
    "C43_execl_overflow"
   ],
   "note": "the unsuccessful search is proved for a PATH that ends with a colon and refuted for others; candidate names that do not fit in the buffer of 256 bytes are excluded"
  },
  {
   "property": "C44",
   "status": "proved",
   "theorems": [
    "C44_programs",
    "C44_returned_number"
   ],
   "note": "Every run of the semantics of programs (TopSpec.v) is followed by the evaluator through any number of collections. The symbols of the program must not be names of macros, and their hash must not be negative (C19_high_byte_refuted); quasiquotation is outside the language."
  },
  {
   "property": "C45",
   "status": "proved",
   "theorems": [
    "C45_fprintf",
    "C45_same_as_sprintf",
    "C45_return_refuted",
    "C45_string_precision_refuted",
    "C45_long_long_refuted",
    "C45_zero_sign_refuted",
    "C45_precision_refuted",
    "C45_n_refuted",
    "C45_lone_percent_refuted",
    "C45_null_refuted"
   ],
   "note": "for formats and arguments on which the code follows ISO C (FprintfSpec.v); the refuted theorems show where it does not. Floating point conversions and failing writes are not modelled."
  },
  {
   "property": "C46",
   "status": "proved",
   "theorems": [
    "C46_errors_are_signalled",
    "C46_what_the_handler_sees",
    "C46_value_or_error"
   ],
   "note": "Every derivation of the semantics of errors (EvalErrSpec.v) is followed by the evaluator up to its call of error(). What a handler or the top level then does with the error is not part of the theorem. = checks the type of its first argument only; a lambda expression that is called directly with the wrong number of arguments is not covered."
  },
  {
   "property": "C47",
   "status": "proved",
   "theorems": [
    "C47_sscanf",
    "C47_round_trip",
    "C47_fscanf",
    "C47_eof_refuted",
    "C47_mismatch_refuted",
    "C47_no_digits_refuted",
    "C47_no_space_refuted",
    "C47_long_refuted",
    "C47_string_refuted",
    "C47_fscanf_two_refuted",
    "C47_fscanf_char_refuted",
    "C47_fscanf_255_refuted",
    "C47_fscanf_space_refuted",
    "C47_fscanf_overruns"
   ],
   "note": "for templates and inputs on which the code follows ISO C (ScanSpec.v); the refuted theorems show where it does not: the result at the end of the input, characters that do not match, letters where a number should be, %ld, %s, and most templates of fscanf."
  },
  {
   "property": "C48",
   "status": "proved",
   "theorems": [
    "C48_programs_signal",
    "C48_what_the_handler_sees",
    "C48_value_or_error"
   ],
   "note": "Every derivation of the semantics of programs that go wrong (TopErrSpec.v) is followed by the evaluator up to its call of error(). Macros, and what a handler or the top level then does with the error, are not part of the theorem."
  },
  {
   "property": "C49",
   "status": "proved",
   "theorems": [
    "C49_definition",
    "C49_definition_succeeds",
    "C49_stays",
    "C49_map",
    "C49_list_tail",
    "C49_list_head",
    "C49_member",
    "C49_cxr",
    "C49_not",
    "C49_remainder",
    "C49_even",
    "C49_odd",
    "C49_odd_refuted",
    "C49_call_program",
    "C49_map_program"
   ],
   "note": "The definitions are written down as the expressions the reader and the macro expander produce for them; the procedures are applied by the semantics that C44 proves the evaluator follows, and C49_call_program carries a definition and a call through to the evaluator; C49_map_program is the instance for map1. The procedure passed to map1 or to srfi-1:member is one that leaves the store as it is. remainder is for a positive divisor. Only the procedures named in SchemeSpec.v."
  }
 ]
}