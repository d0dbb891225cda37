{
 "claims": [
  {
   "property": "C01",
   "status": "proved",
   "theorems": [
    "C01_one_reading",
    "C01_grammar",
    "C01_parse_outcome"
   ],
   "note": "Grammar stated as relation `reads` in SpecGrammar.v; it has exactly one reading per command line, the parser performs it, and argus_parse's outcome follows."
  },
  {
   "property": "C02",
   "status": "proved",
   "theorems": [
    "C02_equal_or_separate"
   ],
   "note": ""
  },
  {
   "property": "C03",
   "status": "proved",
   "theorems": [
    "C03_cut_cluster"
   ],
   "note": ""
  },
  {
   "property": "C04",
   "status": "proved",
   "theorems": [
    "C04_attached_or_separate"
   ],
   "note": ""
  },
  {
   "property": "C05",
   "status": "proved",
   "theorems": [
    "C05_short_or_long",
    "C05_short_or_long_flag"
   ],
   "note": ""
  },
  {
   "property": "C06",
   "status": "partial",
   "theorems": [
    "C06_after_dashes",
    "C06_after_dashes_extra",
    "C06_every_argument_refuted"
   ],
   "note": "Proved for every argument other than `--` itself; refuted for later `--` arguments, which are dropped."
  },
  {
   "property": "C07",
   "status": "proved",
   "theorems": [
    "C07_words_filled",
    "C07_words_extra",
    "C07_receiver_unique",
    "C07_no_receiver_iff"
   ],
   "note": ""
  },
  {
   "property": "C08",
   "status": "partial",
   "theorems": [
    "C08_negative_number",
    "C08_variadic_refuted",
    "C08_otherwise"
   ],
   "note": "Proved for positionals whose value type is INT or FLOAT; refuted for variadic integer positionals. C08_otherwise: in every other case the word is refused as an unknown short option, unless its first character was declared as one."
  },
  {
   "property": "C09",
   "status": "partial",
   "theorems": [
    "C09_exact_name_partial",
    "C09_unique_prefix",
    "C09_ambiguous",
    "C09_exact_name_refuted",
    "C09_first_decides"
   ],
   "note": "Unique prefix and ambiguity proved. Exact name proved when no earlier subcommand's name begins with it; refuted otherwise, and proved that otherwise it is always refused as ambiguous (C09_first_decides)."
  },
  {
   "property": "C10",
   "status": "proved",
   "theorems": [
    "C10_success_accepted",
    "C10_rejected_code",
    "C10_unknown_long",
    "C10_missing_long",
    "C10_unknown_short",
    "C10_missing_short"
   ],
   "note": ""
  },
  {
   "property": "C11",
   "status": "proved",
   "theorems": [
    "C11_isolation"
   ],
   "note": ""
  },
  {
   "property": "C12",
   "status": "proved",
   "theorems": [
    "C12_last_wins",
    "C12_assignments",
    "C12_left_out"
   ],
   "note": "C12_left_out: an earlier value can be left out of the line, with exactly the same result."
  },
  {
   "property": "C13",
   "status": "proved",
   "theorems": [
    "C13_accumulates",
    "C13_strings"
   ],
   "note": "Contents after any accepted parse, with any mix of command line and environment texts; elements of a text given by SpecMemory/SpecContents, integers pinned down in C18."
  },
  {
   "property": "C14",
   "status": "partial",
   "theorems": [
    "C14_sorted",
    "C14_unique",
    "C14_sorted_unique",
    "C14_floats",
    "C14_floats_linked",
    "C14_unique_float_refuted",
    "C14_drift_refuted"
   ],
   "note": "Proved for strings and ints (exactly once, order) and, for doubles, what is kept exactly (UNIQUE alone) and what every kept and dropped number satisfies (with SORTED too); refuted for UNIQUE on doubles, which drops different but close numbers, and with SORTED and repeated options numbers that nothing kept is close to."
  },
  {
   "property": "C15",
   "status": "proved",
   "theorems": [
    "C15_finite_map",
    "C15_bool_value",
    "C15_int_value"
   ],
   "note": "Finite map, order of keys and lookup proved for all four kinds of maps."
  },
  {
   "property": "C16",
   "status": "partial",
   "theorems": [
    "C16_unique_values",
    "C16_sorted_values_partial",
    "C16_wide_integers_refuted"
   ],
   "note": "Unique values proved for strings, ints and bools; sorting by value proved with integers compared by their low 32 bits, refuted for larger integers."
  },
  {
   "property": "C17",
   "status": "partial",
   "theorems": [
    "C17_integer",
    "C17_garbage_refuted",
    "C17_any_text"
   ],
   "note": "Exact value proved for texts that denote a number; refuted: texts with trailing or no digits are accepted. C17_any_text says what any text at all is stored as."
  },
  {
   "property": "C18",
   "status": "partial",
   "theorems": [
    "C18_ranges",
    "C18_flags",
    "C18_greatest_refuted",
    "C18_greatest"
   ],
   "note": "All 32-bit bounds below the greatest int, both separators; refuted at the greatest int (signed overflow): every parse that reaches a part containing it is undefined (C18_greatest)."
  },
  {
   "property": "C19",
   "status": "proved",
   "theorems": [
    "C19_words",
    "C19_bool",
    "C19_refused"
   ],
   "note": ""
  },
  {
   "property": "C20",
   "status": "proved",
   "theorems": [
    "C20_split",
    "C20_pieces_exist",
    "C20_pieces_unique",
    "C20_pieces_clean",
    "C20_pieces_lossless"
   ],
   "note": "split on every text, separator set and schedule of allocation failures; the pieces are given by the independent relation cut."
  },
  {
   "property": "C21",
   "status": "partial",
   "theorems": [
    "C21_required_set",
    "C21_first_problem",
    "C21_required_option_refuted"
   ],
   "note": "Proved for positionals; refuted for options, whose FLAG_REQUIRED is never checked."
  },
  {
   "property": "C22",
   "status": "proved",
   "theorems": [
    "C22_requirements"
   ],
   "note": ""
  },
  {
   "property": "C23",
   "status": "proved",
   "theorems": [
    "C23_one_member"
   ],
   "note": ""
  },
  {
   "property": "C24",
   "status": "proved",
   "theorems": [
    "C24_post_validators",
    "C24_pre_validators"
   ],
   "note": ""
  },
  {
   "property": "C25",
   "status": "partial",
   "theorems": [
    "C25_range",
    "C25_choice_int",
    "C25_range_any",
    "C25_choice_any",
    "C25_length",
    "C25_count",
    "C25_choice_string",
    "C25_range_refuted",
    "C25_range_float_refuted"
   ],
   "note": "Decision proved for int options and lengths, counts; refuted for values whose low 32 bits differ and for float options. C25_range_any and C25_choice_any say what is decided for every stored value: the condition on its low half."
  },
  {
   "property": "C26",
   "status": "partial",
   "theorems": [
    "C26_default",
    "C26_no_environment",
    "C26_float_refuted",
    "C26_float"
   ],
   "note": "Proved for int, bool and string defaults; refuted for float defaults. C26_float says what a finite default from 0 up to 2^64 reads as: the double whose bits are its whole part, right only for zero. Negative, greater and non-finite float defaults (a conversion that C leaves undefined) are not covered."
  },
  {
   "property": "C27",
   "status": "partial",
   "theorems": [
    "C27_is_set",
    "C27_access",
    "C27_default_refuted"
   ],
   "note": "Set marks proved to be exactly the entries supplied by the user or marked by the description; refuted: DEFAULT marks its option."
  },
  {
   "property": "C28",
   "status": "partial",
   "theorems": [
    "C28_command_line",
    "C28_environment",
    "C28_neither",
    "C28_default_suppresses_refuted"
   ],
   "note": "Order command line, environment, default proved as the code does it; refuted: a DEFAULT suppresses the environment."
  },
  {
   "property": "C29",
   "status": "partial",
   "theorems": [
    "C29_variable_name",
    "C29_derived_upper",
    "C29_long_name_refuted",
    "C29_shown_name",
    "C29_in_help",
    "C29_help_cut_refuted"
   ],
   "note": "Name formation and its display in the help proved; refuted beyond 127 characters and for long notes."
  },
  {
   "property": "C30",
   "status": "partial",
   "theorems": [
    "C30_bare_name",
    "C30_root",
    "C30_dotted",
    "C30_after_parse",
    "C30_unknown",
    "C30_prefix_refuted"
   ],
   "note": "Lookup by full path and by bare name proved; refuted: prefixes of subcommand names are taken as the name."
  },
  {
   "property": "C31",
   "status": "partial",
   "theorems": [
    "C31_array",
    "C31_map",
    "C31_wrong_type",
    "C31_unknown",
    "C31_empty_list_refuted"
   ],
   "note": "Proved after every accepted parse with harmless texts; refuted for lists without elements."
  },
  {
   "property": "C32",
   "status": "proved",
   "theorems": [
    "C32_array",
    "C32_map"
   ],
   "note": "Complete traversal, stop, and restart from any point, for arrays and maps."
  },
  {
   "property": "C33",
   "status": "proved",
   "theorems": [
    "C33_exec"
   ],
   "note": ""
  },
  {
   "property": "C34",
   "status": "partial",
   "theorems": [
    "C34_memory_safe",
    "C34_hand_written",
    "C34_empty_list_refuted",
    "C34_array_default_refuted",
    "C34_env_override_refuted",
    "C34_read_after_failure_refuted"
   ],
   "note": "Proved for macro-built tables and harmless inputs; each condition shown necessary by a refutation."
  },
  {
   "property": "C35",
   "status": "partial",
   "theorems": [
    "C35_released_partial",
    "C35_ending",
    "C35_lost",
    "C35_released_once_partial",
    "C35_repeated_key_refuted",
    "C35_refused_list_refuted",
    "C35_midway"
   ],
   "note": "Proved wherever a parse ends (success, refused token, refused value, leaving, failed check), when no key is given twice and it does not end in the first list of an option refused midway; when it does end there, every block allocated before that list is released (C35_midway); at most one block is lost per repeated key. Refuted for repeated keys and for lists refused midway (leaks)."
  },
  {
   "property": "C36",
   "status": "partial",
   "theorems": [
    "C36_split_partial",
    "C36_single",
    "C36_first_refuted",
    "C36_growth_refuted",
    "C36_success",
    "C36_unique_values_refuted"
   ],
   "note": "Splitting handles every failure; a context of single values allocates nothing and parses the same whatever fails (user handlers are modelled as functions of text and value that do not allocate); a parse that returns 0 had every allocation succeed and ends as with ample memory (C36_success), except where repeated values are to be left out (C36_unique_values_refuted); refuted for the growth of arrays."
  },
  {
   "property": "C37",
   "status": "partial",
   "theorems": [
    "C37_success",
    "C37_reading",
    "C37_checking",
    "C37_user_validator_refuted",
    "C37_exit_by_environment_refuted",
    "C37_library",
    "C37_memory_by_environment_refuted"
   ],
   "note": "Proved for every parse whose handlers and validators are those of the library (C37_library); refuted for user validators, for FLAG_EXIT through the environment, and for lack of memory while reading the environment, which leave the code at 0."
  },
  {
   "property": "C38",
   "status": "proved",
   "theorems": [
    "C38_exit_ignores_rest",
    "C38_help_exits"
   ],
   "note": ""
  },
  {
   "property": "C39",
   "status": "partial",
   "theorems": [
    "C39_names",
    "C39_long_name_denotes",
    "C39_short_name_denotes",
    "C39_names_exact",
    "C39_keys_unique_refuted"
   ],
   "note": "Proved for option names (and exactness of the check); refuted for keys shared with an earlier positional."
  },
  {
   "property": "C40",
   "status": "partial",
   "theorems": [
    "C40_placement",
    "C40_placement_exact",
    "C40_optional_variadic_refuted",
    "C40_mixed_refuted"
   ],
   "note": "Proved, with exactness of the check; refuted for optional variadic positionals and required variadic ones beside subcommands."
  },
  {
   "property": "C41",
   "status": "proved",
   "theorems": [
    "C41_entries",
    "C41_handlers",
    "C41_run",
    "C41_ready"
   ],
   "note": ""
  },
  {
   "property": "C42",
   "status": "partial",
   "theorems": [
    "C42_selection_fits",
    "C42_at_most_8",
    "C42_stack",
    "C42_unchecked_refuted",
    "C42_repeated_refuted"
   ],
   "note": "Proved for one parse of an accepted description; refuted without the check and for repeated parsing."
  },
  {
   "property": "C43",
   "status": "proved",
   "theorems": [
    "C43_depth_restored",
    "C43_checks_independent"
   ],
   "note": ""
  },
  {
   "property": "C44",
   "status": "partial",
   "theorems": [
    "C44_organized",
    "C44_screen",
    "C44_hidden_subcommand_refuted"
   ],
   "note": "The organiser places every visible entry once and the whole screen is characterised; refuted for hidden subcommands, which are listed."
  },
  {
   "property": "C45",
   "status": "partial",
   "theorems": [
    "C45_wrapped",
    "C45_words",
    "C45_ends",
    "C45_boundary_refuted",
    "C45_help_endless_refuted",
    "C45_unwrapped_refuted",
    "C45_exact_fit_refuted"
   ],
   "note": "Proved for widths larger than the indentation with words that fit; refuted at the boundary width (never ends), for long words and for text that fits exactly."
  },
  {
   "property": "C46",
   "status": "partial",
   "theorems": [
    "C46_strings",
    "C46_integers",
    "C46_floats_partial",
    "C46_floats_refuted",
    "C46_cut_refuted"
   ],
   "note": "Proved for strings and integers; floats are printed with %.2g (partial, refuted), and the hint is cut when put into the description."
  },
  {
   "property": "C47",
   "status": "partial",
   "theorems": [
    "C47_strcpy",
    "C47_strncpy",
    "C47_strcat",
    "C47_strncat_partial",
    "C47_strncat_beyond",
    "C47_strndup",
    "C47_strndup_unterminated",
    "C47_refused",
    "C47_strncat_refuted"
   ],
   "note": "Proved for all sizes; safe_strncat refuted: it can write past the end when the text in the destination reaches the declared size; C47_strncat_beyond says exactly what happens in that case."
  },
  {
   "property": "C48",
   "status": "partial",
   "theorems": [
    "C48_safe",
    "C48_restored",
    "C48_uncaptured",
    "C48_others",
    "C48_no_leak",
    "C48_redirect",
    "C48_cleanup_partial",
    "C48_cleanup",
    "C48_cleanup_refuted",
    "C48_restore_refuted",
    "C48_active"
   ],
   "note": "Proved for every sequence of calls and every failure during redirection; cleanup proved when at most standard error is captured, refuted with standard output captured, and characterised exactly in C48_cleanup; restore refuted when its unchecked dup2 fails. C48_active: stream_is_active tells exactly which standard streams do not go where they went at the start."
  },
  {
   "property": "C49",
   "status": "partial",
   "theorems": [
    "C49_same_line",
    "C49_two_lines",
    "C49_kept",
    "C49_array_refuted",
    "C49_set_refuted",
    "C49_command_refuted"
   ],
   "note": "The effect of argus_free on a context is stated exactly; re-parsing is refuted in three ways: counts, set marks and selected subcommands survive argus_free. Without argus_free: the same line of single values gives the same context again (C49_same_line), and a second line goes on where the first ended (C49_two_lines)."
  },
  {
   "property": "C50",
   "status": "partial",
   "theorems": [
    "C50_exact_name_partial",
    "C50_cut",
    "C50_long_name_refuted"
   ],
   "note": "Proved for names of at most 63 characters; refuted beyond. C50_cut says what happens for every name: it is read as its first 63 characters."
  },
  {
   "property": "C51",
   "status": "proved",
   "theorems": [
    "C51_default_validated"
   ],
   "note": ""
  },
  {
   "property": "C52",
   "status": "proved",
   "theorems": [
    "C52_accepts_exactly",
    "C52_acyclic"
   ],
   "note": ""
  },
  {
   "property": "C53",
   "status": "partial",
   "theorems": [
    "C53_description_partial",
    "C53_attribute_refuted",
    "C53_range_refuted",
    "C53_default_refuted",
    "C53_collection_refuted"
   ],
   "note": "Proved when the notes fit the fixed buffers; four refutations beyond."
  },
  {
   "property": "C54",
   "status": "partial",
   "theorems": [
    "C54_safe_partial",
    "C54_group_refuted",
    "C54_exact"
   ],
   "note": "C54_exact decides every case: help ends and releases its memory exactly when no record of a group is refused (SpecGroupMemory.v lists the requests in order); C54_group_refuted is a witness of the other case, C54_safe_partial the two cases that need no look at the requests."
  },
  {
   "property": "C55",
   "status": "proved",
   "theorems": [
    "C55_usage"
   ],
   "note": ""
  },
  {
   "property": "C56",
   "status": "partial",
   "theorems": [
    "C56_overview",
    "C56_listed_partial",
    "C56_below",
    "C56_deep_refuted"
   ],
   "note": "Proved for two levels of the general overview and for the screen below a selected command; refuted for deeper commands."
  },
  {
   "property": "C57",
   "status": "partial",
   "theorems": [
    "C57_named",
    "C57_described_partial",
    "C57_which",
    "C57_refuted",
    "C57_parse_refuted"
   ],
   "note": "Proved for 22 codes; refuted for the nine others, of which one is returned by argus_parse. C57_which: exactly those 22 integers are described. C57_named: a description begins with the words of the enumerator's name in errors.h."
  },
  {
   "property": "C58",
   "status": "partial",
   "theorems": [
    "C58_read",
    "C58_printed",
    "C58_again",
    "C58_memory",
    "C58_buffered_refuted",
    "C58_full_refuted",
    "C58_lost_refuted"
   ],
   "note": "Proved for all sessions and all buffering of stdio when the text fits the pipe; refuted for text buffered before the capture, text larger than the pipe, and text unread at restore."
  },
  {
   "property": "C59",
   "status": "partial",
   "theorems": [
    "C59_decides_partial",
    "C59_silent_refuted",
    "C59_custom_refuted",
    "C59_cycle_refuted"
   ],
   "note": "Proved when the tables form a hierarchy and no validator is silent once one has refused the default; refuted without either. Validators of the program are modelled as printing nothing."
  },
  {
   "property": "C60",
   "status": "partial",
   "theorems": [
    "C60_told_partial",
    "C60_no_memory_refuted",
    "C60_wrong_reason_refuted",
    "C60_exit_by_environment_refuted"
   ],
   "note": "Proved for all tables without handlers or validators of the program, whatever allocations fail; refuted for out-of-memory codes and for exit options set by the environment."
  },
  {
   "property": "C61",
   "status": "partial",
   "theorems": [
    "C61_words_partial",
    "C61_dash_refuted"
   ],
   "note": "Proved for all accepted lines and all words but - and --; refuted for a lone dash. The value of --flag=value counts as part of the word naming the flag and is ignored (C50)."
  },
  {
   "property": "C62",
   "status": "proved",
   "theorems": [
    "C62_port",
    "C62_positive",
    "C62_negative",
    "C62_hex",
    "C62_decimal",
    "C62_newline"
   ],
   "note": "Exact languages. The final newline is a surprise of PCRE2's $ (see findings): C62_newline."
  },
  {
   "property": "C63",
   "status": "partial",
   "theorems": [
    "C63_ipv6",
    "C63_ipv4_partial",
    "C63_domain",
    "C63_url",
    "C63_http",
    "C63_ipv4_refuted",
    "C63_ipv6_refuted",
    "C63_url_refuted"
   ],
   "note": "Exact languages proved for all five patterns; each of IPV4, IPV6, URL and HTTP refuted as an address of its kind."
  },
  {
   "property": "C64",
   "status": "partial",
   "theorems": [
    "C64_email",
    "C64_strict_email",
    "C64_date",
    "C64_moment",
    "C64_date_refuted"
   ],
   "note": "Exact languages proved; refuted for days that do not exist."
  },
  {
   "property": "C65",
   "status": "partial",
   "theorems": [
    "C65_user",
    "C65_password",
    "C65_uuid",
    "C65_path",
    "C65_file",
    "C65_version",
    "C65_password_refuted",
    "C65_path_refuted"
   ],
   "note": "Exact languages proved; refuted against the documented form of passwords and for paths with spaces."
  },
  {
   "property": "C66",
   "status": "partial",
   "theorems": [
    "C66_validator",
    "C66_taken",
    "C66_stub_refuted"
   ],
   "note": "Proved under the hypothesis that PCRE2 matches as documented for the patterns of the modelled fragment (match limits not modelled); refuted for the stub patterns."
  },
  {
   "property": "C67",
   "status": "partial",
   "theorems": [
    "C67_rejected",
    "C67_unknown_long",
    "C67_missing_long",
    "C67_unknown_short",
    "C67_missing_short",
    "C67_unknown_positional",
    "C67_ambiguous",
    "C67_checked",
    "C67_silent",
    "C67_defined",
    "C67_nameless_refuted",
    "C67_memory_refuted"
   ],
   "note": "Handlers and validators of the library. Proved for every token that can be refused and every rule; the texts of refused values are C68. Refuted for a nameless exclusive group and for the lack of memory."
  },
  {
   "property": "C68",
   "status": "proved",
   "theorems": [
    "C68_refused",
    "C68_environment",
    "C68_decided",
    "C68_determined"
   ],
   "note": "Handlers and validators of the library, enough memory, harmless values (no empty list, range below INT_MAX) as in C34; what PCRE2 says about a bad pattern is a parameter."
  },
  {
   "property": "C69",
   "status": "partial",
   "theorems": [
    "C69_told",
    "C69_silent",
    "C69_no_file",
    "C69_bystander_refuted"
   ],
   "note": "The hypothesis on choices is that of C67 (a list of choices that can be printed). File and line of the entries are parameters."
  },
  {
   "property": "C70",
   "status": "partial",
   "theorems": [
    "C70_order",
    "C70_overflow",
    "C70_distance_refuted",
    "C70_null_refuted",
    "C70_nan_refuted",
    "C70_choice",
    "C70_printed",
    "C70_printed_list",
    "C70_print_null_refuted"
   ],
   "note": "Exact for booleans, texts, numbers other than NaN and integers whose distance fits an int; undefined exactly for other integers. Refuted with null strings and NaN (below and above at once) and for printing a null string."
  },
  {
   "property": "C71",
   "status": "partial",
   "theorems": [
    "C71_told",
    "C71_long_refuted",
    "C71_descriptors_refuted",
    "C71_memory_refuted"
   ],
   "note": "Under the stated conditions (no failing call, messages no longer than the pipe). Refuted beyond them: blocks for ever on a long message; undefined when redirect_stderr or the allocation for the text fails."
  },
  {
   "property": "C72",
   "status": "proved",
   "theorems": [
    "C72_line",
    "C72_permuted",
    "C72_accepted",
    "C72_first",
    "C72_first_environment",
    "C72_verdict"
   ],
   "note": "All of argus_parse's outcomes: with C21 for entries that are not in order at the end. Needs input without the hazards of C34 and a sorting qsort."
  },
  {
   "property": "C73",
   "status": "proved",
   "theorems": [
    "C73_reordered",
    "C73_lists",
    "C73_maps"
   ],
   "note": "The exact result for exchanges that move a single value; the contents of lists and maps for any two lines. Custom handlers are functions of the text and the old value, see the trusted base."
  },
  {
   "property": "C74",
   "status": "proved",
   "theorems": [
    "C74_as_words",
    "C74_same_checks",
    "C74_refused",
    "C74_one_variable"
   ],
   "note": "Proved for every table that passed the structure check; the texts of flags cannot be given on the command line, so lines for them do not exist."
  },
  {
   "property": "C75",
   "status": "partial",
   "theorems": [
    "C75_every_request",
    "C75_never_given",
    "C75_never_run",
    "C75_enterable",
    "C75_found",
    "C75_options_refuted",
    "C75_subcommands_refuted"
   ],
   "note": "C75_options_refuted and C75_subcommands_refuted: the structure check accepts options and subcommands that nothing on a command line can reach. Short names that are digits are outside C75_every_request, since '-5' may be a number."
  },
  {
   "property": "C76",
   "status": "proved",
   "theorems": [
    "C76_texts",
    "C76_integers",
    "C76_pairs",
    "C76_taken",
    "C76_which",
    "C76_which_pairs"
   ],
   "note": "Under the conditions of C34 (harmless input), which exclude the greatest int as an element; there is no way to escape a comma."
  },
  {
   "property": "C77",
   "status": "partial",
   "theorems": [
    "C77_added_entry",
    "C77_still_accepted",
    "C77_abbreviation_refuted",
    "C77_word_refuted",
    "C77_digit_refuted"
   ],
   "note": "Options and groups at the end of a table. Refuted for subcommands and numeric positionals; an entry with a default value is set from the start and may conflict with others, so it is outside the claim."
  },
  {
   "property": "C78",
   "status": "partial",
   "theorems": [
    "C78_option",
    "C78_command",
    "C78_option_refuted",
    "C78_default",
    "C78_wide_default_refuted",
    "C78_offered",
    "C78_wide_choice_refuted"
   ],
   "note": "Names of 1 to 63 characters without '='; defaults of int (read as int), bool and string options; integer choices and ranges of 32 bits and string choices. Refuted beyond."
  },
  {
   "property": "C79",
   "status": "proved",
   "theorems": [
    "C79_released",
    "C79_decides",
    "C79_model"
   ],
   "note": "PCRE2 is represented by its documented calls (PcreCalls.v); C79_model ties this to the validator used elsewhere."
  },
  {
   "property": "C80",
   "status": "partial",
   "theorems": [
    "C80_help_anywhere",
    "C80_version_anywhere",
    "C80_help_always",
    "C80_version_always",
    "C80_help",
    "C80_version",
    "C80_refused",
    "C80_success",
    "C80_success_refuted"
   ],
   "note": "C80_help needs the limits of C44 (texts that fit the buffers). C80_help_anywhere and C80_version_anywhere: after any words that are carried out without error, with handlers and validators of the library; C80_help_always and C80_version_always: after a path of names, without assuming that the parse is defined. C80_success_refuted: without FLAG_EXIT a help option prints its screen and the parse goes on to succeed."
  },
  {
   "property": "C81",
   "status": "partial",
   "theorems": [
    "C81_defined",
    "C81_action",
    "C81_no_action",
    "C81_released_partial",
    "C81_status_refuted"
   ],
   "note": "C81_released_partial leaves out what C35 leaves out: keys given twice and the first list of an option that is refused midway. Actions are taken to change the context only by reading values. C81_status_refuted: the examples drop the status of the action, so the process ends with 0 although the action failed."
  },
  {
   "property": "C82",
   "status": "proved",
   "theorems": [
    "C82_only_declared",
    "C82_own_names"
   ],
   "note": "No assumption that the parse is defined or succeeds. The rest of the C library is the same in both runs; the environment does not change during a call."
  },
  {
   "property": "C83",
   "status": "proved",
   "theorems": [
    "C83_help",
    "C83_usage",
    "C83_version"
   ],
   "note": "C83_help has the hypotheses of C44 (texts that fit the buffers, memory for the help)."
  },
  {
   "property": "C84",
   "status": "proved",
   "theorems": [
    "C84_range",
    "C84_length",
    "C84_count",
    "C84_string",
    "C84_int",
    "C84_float"
   ],
   "note": "Integers are read as int (as_int), the member the validators look at; the 64-bit member may lie outside the range (C25_range_refuted)."
  },
  {
   "property": "C85",
   "status": "partial",
   "theorems": [
    "C85_runs",
    "C85_listed",
    "C85_hidden_refuted",
    "C85_below",
    "C85_below_refuted"
   ],
   "note": "The words run the command provided the parse succeeds (required options given) and the rest of the line selects no further command. Refuted for a command whose name begins the name of an earlier sibling."
  },
  {
   "property": "C86",
   "status": "partial",
   "theorems": [
    "C86_derived",
    "C86_declared",
    "C86_shared_refuted"
   ],
   "note": "Exact when both options are of the same kind; a derived and a declared name, or a declared name that already begins with the prefix and one that does not, may also coincide (C86_shared_refuted)."
  },
  {
   "property": "C87",
   "status": "partial",
   "theorems": [
    "C87_read",
    "C87_usage",
    "C87_unreachable_refuted"
   ],
   "note": "Words that begin with '-' or with which a subcommand's name begins are excluded (C08, C09). Refuted for a variadic argument before others."
  },
  {
   "property": "C88",
   "status": "proved",
   "theorems": [
    "C88_accepted",
    "C88_texts",
    "C88_afterwards",
    "C88_structure_not_kept",
    "C88_well_formed"
   ],
   "note": "Lines that were refused may be refused with other words (the message about two possible commands shows help texts). The structure check is not kept: an optional positional before a required one and a subcommand without help text are malformed."
  },
  {
   "property": "C89",
   "status": "proved",
   "theorems": [
    "C89_refused",
    "C89_exited",
    "C89_environment",
    "C89_missing"
   ],
   "note": "Refusals with the status E_MISSING_VALUE are left out of the first theorem; the last one says what becomes of them."
  },
  {
   "property": "C90",
   "status": "proved",
   "theorems": [
    "C90_whole",
    "C90_reading",
    "C90_value",
    "C90_collections",
    "C90_unknown",
    "C90_path",
    "C90_action",
    "C90_itself",
    "C90_after"
   ],
   "note": "The program's own table is idle in C90_whole (see idle in SpecNest.v); C90_reading has no such condition and stops before environment and final checks."
  }
 ]
}