# Verification of Argus (lucocozz/Argus): design

All Coq files live in `rocq/theories` (logical root `Verif`).  Build:
`cd rocq && coq_makefile -f _CoqProject -o Makefile && make -j4`.

## 1. Shape of the model

The model is an executable Gallina transcription of the C functions, one Gallina
function per C function, each with the file and lines it transcribes.

* **C strings** are lists of bytes (`list ascii`) without the terminator.
* **Memory**: a heap is a list of blocks that is never reused (`None` = freed).
  Blocks are typed: a string, an array of value cells, an array of key/value pairs.
  Every load, store, `free` and `realloc` is checked; a bad one is the outcome `UB`
  (null dereference, wild pointer, out of bounds, use after free, invalid free,
  read of an uninitialised cell, type confusion, signed overflow, stack overflow).
  `realloc` always moves, as the C standard allows.
* **Allocation failure**: an oracle (list of booleans) decides which allocations fail.
* **The value union** is a 64-bit cell with the number of low bytes that are known,
  or a pointer (to a heap block or to a constant string).  Reading a wider member than
  was written is an `UninitRead`.
* **libc** is a record parameter (`Libc`): `getenv`, `strtod`, `strtof`, `qsort`, the
  regex engine, float formatting.  Theorems quantify over it.  `qsort` is assumed to
  permute, and to sort when the comparison function is a consistent total preorder
  (hypothesis visible in the theorems that need it).  `strtol`/`strtoll`, `strcmp`,
  `strncmp`, `strchr`, `tolower`, `toupper`, `isdigit`, `snprintf` truncation are modelled
  concretely (C locale, glibc behaviour for bytes >= 128).
* **Option tables**: tables are addressed by number, options by (table, index); a
  subcommand refers to its table by number, so sharing and cycles are representable.
* **User code** (custom handlers and validators) is represented by arbitrary functions that may
  set the value of their own option and return any status.  User code that
  modifies other options, frees memory or prints is outside the model.
* **Diagnostics** are events with their code; screens are events during parsing, and their
  text is modelled separately (Display.v).
* **Loops without an evident bound** (wrapping, recursion over tables) take fuel; theorems
  quantify over all sufficient fuel, and running out is a distinct outcome.
* **Streams**: descriptor table, pipes with a capacity, stdio buffers that may be flushed at any
  time (an oracle), failing system calls (an oracle), blocking writes as a distinct outcome.

Specifications are in separate `Spec*.v` files which do not use the model's helper
functions.  Proofs are in `*Proofs.v`, `*Facts.v`, `*Lemmas.v`; the theorems listed in
`MANIFEST.json` are in `Props*.v`, each followed by `Print Assumptions` and an `Example`.
Concrete tables for the examples are in `Ex*.v`.

### Where the code is modelled

| code in /repo | model |
|---|---|
| includes/argus/types.h, errors.h (codes) | State.v |
| libc functions used | CLib.v |
| includes/argus/options.h (declaration macros) | Macros.v |
| source/utils/strings.c, multi_values.c; source/callbacks/handlers/* | Handlers.v |
| source/callbacks/validators/* (decisions) | Parse.v |
| source/core/parsing/*, option lookup, context | Parse.v |
| source/api/argus_free.c, argus_parse.c, argus_exec.c, argus_value_access.c | Api.v |
| source/core/validation/*, source/api/argus_init.c | Validate.v (statuses), StructErrors.v (texts, argus_struct_error) |
| source/display/*, formatters of source/callbacks/validators/*, argus_strerror | Display.v |
| texts of ARGUS_PARSING_ERROR (includes/argus/errors.h), the pointer in argus_parse.c | Messages.v |
| includes/argus/internal/cross_platform.h | Buffer.v |
| source/api/argus_display.c | Display.v |
| source/utils/stream.c | Stream.v |
| source/utils/value_utils.c | Handlers.v (free_option_value), ValueUtils.v (the rest) |
| includes/argus/regex.h (patterns, and PCRE2's meaning of them) | Regex.v |
| regex_validator.c on the objects of PCRE2 | PcreCalls.v |
| standard output of help_handler.c, version_handler.c, argus_parse.c | Stdout.v |
| main of examples/subcommands.c and nested_commands.c | Program.v |

Not modelled: what PCRE2
says about a pattern (a parameter), the allocation of the list of choices inside a message (taken
to succeed), colours, the code of the regex
engine (an oracle; C66 assumes, as the visible hypothesis `pcre2 L`, that it decides the documented
meaning of the patterns, without match limits), user-written formatters, threads, the Windows branches, `printf` of floats (an oracle).
The redirection of stderr inside `validate_default_value` is taken to succeed in Validate.v and
StructErrors.v; DefaultOs.v runs the same loop on the streams of Stream.v, and C71 says when this is
right and what happens otherwise.

### Evidence that the model is faithful

The code could not be run, so the repository's own tests were run on the model instead: ConformApi.v
and ConformUnit.v transcribe the tests of /repo/tests as Examples (Conform.v has the vocabulary: the
tables, the command line, and what the test asserts).  Related tests may share an
Example.  Left out are test_debug_mode.c, `argus_init` of test_api.c (names and version in the context) and `free_option_value` of
test_value_utils.c (a user's free handler).  All hold on the model except one:
tests/unit/test_robustness.c `missing_required` asserts something false of the library (section 4);
its Example states what the library does.  The transcription found one error of the model, since
repaired: V_REGEX applied to a null value is refused with PCRE2's error -51 and is not undefined.

## 2. Per property

Status "partial" mostly means that the full claim is false of the code: the theorem is then
proved under a stated condition, and a theorem ending in `_refuted` gives the counterexample.

**C01 Command-line grammar: parsing performs exactly the documented assignments, in order** (proved).  Modelled: parse_args, handle_long/short/positional/subcommand, execute_callbacks (Parse.v), argus_parse (Api.v).  Proof: the relation `reads` (SpecGrammar.v) is total and functional; the parser refines it, by induction on the length of the line (GrammarProofs.v).
Theorems: `C01_one_reading`, `C01_grammar`, `C01_parse_outcome`.
Grammar stated as relation `reads` in SpecGrammar.v; it has exactly one reading per command line, the parser performs it, and argus_parse's outcome follows.

**C02 --name=value and --name value are interchangeable** (proved).  Modelled: as C01.  Proof: both lines have the same reading (`same_reading`, GrammarLemmas.v).
Theorems: `C02_equal_or_separate`.

**C03 Short-flag clusters are interchangeable with separate short flags** (proved).  Modelled: as C01.  Proof: same reading of the cut cluster.
Theorems: `C03_cut_cluster`.

**C04 -ovalue and -o value are interchangeable** (proved).  Modelled: as C01.  Proof: same reading.
Theorems: `C04_attached_or_separate`.

**C05 Short and long spelling name the same option** (proved).  Modelled: as C01.  Proof: same reading, for flags and for options with a value.
Theorems: `C05_short_or_long`, `C05_short_or_long_flag`.

**C06 `--` ends option processing** (partial).  Modelled: as C01.  Proof: induction on the words after `--`.
Theorems: `C06_after_dashes`, `C06_after_dashes_extra`, `C06_every_argument_refuted`.
Proved for every argument other than `--` itself; refuted for later `--` arguments, which are dropped.

**C07 Positionals are filled in declaration order, a variadic one takes the rest** (proved).  Modelled: as C01, find_positional.  Proof: induction on the words; `receives` is functional and its absence is decided by counting.
Theorems: `C07_words_filled`, `C07_words_extra`, `C07_receiver_unique`, `C07_no_receiver_iff`.

**C08 Negative numbers reach numeric positionals** (partial).  Modelled: is_negative_number, find_positional.  Proof: grammar; refutation by computation.
Theorems: `C08_negative_number`, `C08_variadic_refuted`, `C08_otherwise`.
Proved for positionals whose value type is INT or FLOAT; refuted for variadic integer positionals. C08_otherwise: in every other case the word is refused as an unknown short option, unless its first character was declared as one.

**C09 Subcommand selection by name or unambiguous prefix** (partial).  Modelled: find_subcommand.  Proof: loop invariant against `selects`/`ambiguous`; refutation by computation.
Theorems: `C09_exact_name_partial`, `C09_unique_prefix`, `C09_ambiguous`, `C09_exact_name_refuted`, `C09_first_decides`.
Unique prefix and ambiguity proved. Exact name proved when no earlier subcommand's name begins with it; refuted otherwise, and proved that otherwise it is always refused as ambiguous (C09_first_decides).

**C10 Unknown options and missing values are rejected** (proved).  Modelled: as C01.  Proof: success means that the reading holds no rejection; the code of the first rejection is returned.
Theorems: `C10_success_accepted`, `C10_rejected_code`, `C10_unknown_long`, `C10_missing_long`, `C10_unknown_short`, `C10_missing_short`.

**C11 Subcommand isolation** (proved).  Modelled: all of argus_parse.  Proof: frame invariant: only tables of the active chain change (IsolationProofs.v).
Theorems: `C11_isolation`.

**C12 Scalar options: the last occurrence wins** (proved).  Modelled: scalar handlers, load_env_vars.  Proof: run of a sequence of calls; only the last one to an entry matters (CallProofs.v).
Theorems: `C12_last_wins`, `C12_assignments`, `C12_left_out`.
C12_left_out: an earlier value can be left out of the line, with exactly the same result.

**C13 Array options accumulate every occurrence in order** (proved).  Modelled: array handlers, strings.c split, multi_values.c.  Proof: heap invariant `holds a list`, induction over calls (ArrayProofs.v, CollProofs.v).
Theorems: `C13_accumulates`, `C13_strings`.
Contents after any accepted parse, with any mix of command line and environment texts; elements of a text given by SpecMemory/SpecContents, integers pinned down in C18.

**C14 Sorted and unique arrays** (partial).  Modelled: apply_array_flags, comparison functions.  Proof: permutation and order from the assumptions on qsort; the unique pass keeps one of each (FlagProofs.v); for doubles, chains of close numbers (LinkProofs.v).
Theorems: `C14_sorted`, `C14_unique`, `C14_sorted_unique`, `C14_floats`, `C14_floats_linked`, `C14_unique_float_refuted`, `C14_drift_refuted`.
Proved for strings and ints (exactly once, order) and, for doubles, what is kept exactly (UNIQUE alone) and what every kept and dropped number satisfies (with SORTED too); refuted for UNIQUE on doubles, which drops different but close numbers, and with SORTED and repeated options numbers that nothing kept is close to.

**C15 Map options behave as finite maps** (proved).  Modelled: map handlers.  Proof: heap invariant; contents as an association list (MapProofs.v, MapWhole.v, CollMaps.v).
Theorems: `C15_finite_map`, `C15_bool_value`, `C15_int_value`.
Finite map, order of keys and lookup proved for all four kinds of maps.

**C16 Unique-value and sorted-by-value maps** (partial).  Modelled: apply_map_flags.  Proof: as C14 for pairs (MapFlags.v).
Theorems: `C16_unique_values`, `C16_sorted_values_partial`, `C16_wide_integers_refuted`.
Unique values proved for strings, ints and bools; sorting by value proved with integers compared by their low 32 bits, refuted for larger integers.

**C17 Integer texts denote their value** (partial).  Modelled: int_handler, strtoll (CLib.v).  Proof: decimal reading against the library's own Decimal numerals (ValueProofs.v).
Theorems: `C17_integer`, `C17_garbage_refuted`, `C17_any_text`.
Exact value proved for texts that denote a number; refuted: texts with trailing or no digits are accepted. C17_any_text says what any text at all is stored as.

**C18 Integer ranges a-b expand to all integers between** (partial).  Modelled: parse_int_range, add_range_values.  Proof: induction on the length of the range (RangeProofs.v); overflow carried from the part through the handler to the parse (GreatestProofs.v).
Theorems: `C18_ranges`, `C18_flags`, `C18_greatest_refuted`, `C18_greatest`.
All 32-bit bounds below the greatest int, both separators; refuted at the greatest int (signed overflow): every parse that reaches a part containing it is undefined (C18_greatest).

**C19 Boolean words** (proved).  Modelled: string_to_bool, bool_handler.  Proof: exhaustive words, case folding.
Theorems: `C19_words`, `C19_bool`, `C19_refused`.

**C20 List splitting** (proved).  Modelled: split, free_split.  Proof: characterisation by the relation `cut`, for every schedule of failures (SplitProofs.v).
Theorems: `C20_split`, `C20_pieces_exist`, `C20_pieces_unique`, `C20_pieces_clean`, `C20_pieces_lossless`.
split on every text, separator set and schedule of allocation failures; the pieces are given by the independent relation cut.

**C21 Required positionals are enforced** (partial).  Modelled: post_parse_validation.c.  Proof: loop invariant over the table (AfterProofs.v).
Theorems: `C21_required_set`, `C21_first_problem`, `C21_required_option_refuted`.
Proved for positionals; refuted for options, whose FLAG_REQUIRED is never checked.

**C22 Dependencies and conflicts are enforced** (proved).  Modelled: validate_required, validate_conflicts.  Proof: loop invariant.
Theorems: `C22_requirements`.

**C23 Exclusive groups** (proved).  Modelled: exclusive groups of validate_options_set.  Proof: loop invariant carrying the group.
Theorems: `C23_one_member`.

**C24 Validators hold after success** (proved).  Modelled: run_validators, call_validators.  Proof: induction over the validators, composed with the whole parse.
Theorems: `C24_post_validators`, `C24_pre_validators`.

**C25 Range, length, count and choice validators decide their documented condition** (partial).  Modelled: the validators.  Proof: equivalence with the condition; refutations by computation.
Theorems: `C25_range`, `C25_choice_int`, `C25_range_any`, `C25_choice_any`, `C25_length`, `C25_count`, `C25_choice_string`, `C25_range_refuted`, `C25_range_float_refuted`.
Decision proved for int options and lengths, counts; refuted for values whose low 32 bits differ and for float options. C25_range_any and C25_choice_any say what is decided for every stored value: the condition on its low half.

**C26 Default values are delivered** (partial).  Modelled: DEFAULT macro (Macros.v), argus_parse.  Proof: frame: an entry that is not mentioned keeps its value; for doubles the whole part from the bits (SpecDefaultFloat.v, DefaultFloatProofs.v).
Theorems: `C26_default`, `C26_no_environment`, `C26_float_refuted`, `C26_float`.
Proved for int, bool and string defaults; refuted for float defaults. C26_float says what a finite default from 0 up to 2^64 reads as: the double whose bits are its whole part, right only for zero. Negative, greater and non-finite float defaults (a conversion that C leaves undefined) are not covered.

**C27 argus_is_set tells whether the user supplied the option** (partial).  Modelled: argus_is_set, execute_callbacks.  Proof: set marks are exactly the entries mentioned or marked before.
Theorems: `C27_is_set`, `C27_access`, `C27_default_refuted`.
Set marks proved to be exactly the entries supplied by the user or marked by the description; refuted: DEFAULT marks its option.

**C28 Precedence of command line, environment and default** (partial).  Modelled: load_env_vars.c.  Proof: case analysis of the environment phase (EnvProofs.v).
Theorems: `C28_command_line`, `C28_environment`, `C28_neither`, `C28_default_suppresses_refuted`.
Order command line, environment, default proved as the code does it; refuted: a DEFAULT suppresses the environment.

**C29 Environment variable naming** (partial).  Modelled: get_env_var_name (both copies), help notes.  Proof: equality with the specified name; truncation by computation.
Theorems: `C29_variable_name`, `C29_derived_upper`, `C29_long_name_refuted`, `C29_shown_name`, `C29_in_help`, `C29_help_cut_refuted`.
Name formation and its display in the help proved; refuted beyond 127 characters and for long notes.

**C30 Lookup by path** (partial).  Modelled: option_lookup.c.  Proof: resolution of paths component by component (LookupProofs.v).
Theorems: `C30_bare_name`, `C30_root`, `C30_dotted`, `C30_after_parse`, `C30_unknown`, `C30_prefix_refuted`.
Lookup by full path and by bare name proved; refuted: prefixes of subcommand names are taken as the name.

**C31 Element access is bounds-checked and complete** (partial).  Modelled: argus_value_access.c.  Proof: heap invariant after every accepted parse.
Theorems: `C31_array`, `C31_map`, `C31_wrong_type`, `C31_unknown`, `C31_empty_list_refuted`.
Proved after every accepted parse with harmless texts; refuted for lists without elements.

**C32 Iterators visit every element exactly once, in order, and can be restarted** (proved).  Modelled: iterators of argus_value_access.c.  Proof: induction on the number of steps.
Theorems: `C32_array`, `C32_map`.
Complete traversal, stop, and restart from any point, for arrays and maps.

**C33 argus_exec runs the selected command** (proved).  Modelled: argus_exec.c.  Proof: case analysis.
Theorems: `C33_exec`.

**C34 Parsing is memory-safe** (partial).  Modelled: everything that touches memory.  Proof: heap ownership invariant kept by every call (SafeProofs.v, SafePerform.v, SafeWhole.v).
Theorems: `C34_memory_safe`, `C34_hand_written`, `C34_empty_list_refuted`, `C34_array_default_refuted`, `C34_env_override_refuted`, `C34_read_after_failure_refuted`.
Proved for macro-built tables and harmless inputs; each condition shown necessary by a refutation.

**C35 argus_free releases everything exactly once** (partial).  Modelled: argus_free.c, free handlers; all ends of argus_parse.  Proof: every owned block is released once, nothing else is live (FreeProofs.v); a call that fails without beginning a list keeps every block owned by an option that will release it (LeakProofs.v), so the invariant of C34 reaches every end of the parse; blocks of a first list refused midway are all younger than those before it (MidwayProofs.v).
Theorems: `C35_released_partial`, `C35_ending`, `C35_lost`, `C35_released_once_partial`, `C35_repeated_key_refuted`, `C35_refused_list_refuted`, `C35_midway`.
Proved wherever a parse ends (success, refused token, refused value, leaving, failed check), when no key is given twice and it does not end in the first list of an option refused midway; when it does end there, every block allocated before that list is released (C35_midway); at most one block is lost per repeated key. Refuted for repeated keys and for lists refused midway (leaks).

**C36 Allocation failure is reported, not exploited** (partial).  Modelled: malloc/realloc everywhere.  Proof: all failure schedules for split; for contexts of single values the parse commutes with a change of the failure schedule (SingleProofs.v); C36_success: every handler either ends as with ample memory having had no failure, or does not succeed (ScarceProofs.v), lifted over the reading of a line (ScarceWhole.v); refutations by computation.
Theorems: `C36_split_partial`, `C36_single`, `C36_first_refuted`, `C36_growth_refuted`, `C36_success`, `C36_unique_values_refuted`.
Splitting handles every failure; a context of single values allocates nothing and parses the same whatever fails (user handlers are modelled as functions of text and value that do not allocate); a parse that returns 0 had every allocation succeed and ends as with ample memory (C36_success), except where repeated values are to be left out (C36_unique_values_refuted); refuted for the growth of arrays.

**C37 Returned status and error_code agree** (partial).  Modelled: argus_parse.c, errors.h.  Proof: induction along the run.
Theorems: `C37_success`, `C37_reading`, `C37_checking`, `C37_user_validator_refuted`, `C37_exit_by_environment_refuted`, `C37_library`, `C37_memory_by_environment_refuted`.
Proved for every parse whose handlers and validators are those of the library (C37_library); refuted for user validators, for FLAG_EXIT through the environment, and for lack of memory while reading the environment, which leave the code at 0.

**C38 Exit options stop parsing immediately** (proved).  Modelled: FLAG_EXIT, execute_callbacks.  Proof: the rest of the line is irrelevant.
Theorems: `C38_exit_ignores_rest`, `C38_help_exits`.

**C39 Structure check guarantees unique option names** (partial).  Modelled: validate_arguments.c.  Proof: loops against the declarative condition, both directions (StructProofs.v).
Theorems: `C39_names`, `C39_long_name_denotes`, `C39_short_name_denotes`, `C39_names_exact`, `C39_keys_unique_refuted`.
Proved for option names (and exactness of the check); refuted for keys shared with an earlier positional.

**C40 Structure check guarantees sane placement** (partial).  Modelled: validate_arguments.c, validate_structure.c.  Proof: loops against the declarative condition, both directions.
Theorems: `C40_placement`, `C40_placement_exact`, `C40_optional_variadic_refuted`, `C40_mixed_refuted`.
Proved, with exactness of the check; refuted for optional variadic positionals and required variadic ones beside subcommands.

**C41 Structure check guarantees resolvable dependencies and callable handlers** (proved).  Modelled: validate_option.c and callers.  Proof: as C40.
Theorems: `C41_entries`, `C41_handlers`, `C41_run`, `C41_ready`.

**C42 Subcommand nesting never overflows the command stack** (partial).  Modelled: validate_structure.c, enter_subcommand.  Proof: depth of the tree of tables bounds the stack.
Theorems: `C42_selection_fits`, `C42_at_most_8`, `C42_stack`, `C42_unchecked_refuted`, `C42_repeated_refuted`.
Proved for one parse of an accepted description; refuted without the check and for repeated parsing.

**C43 Structure check restores its depth counter** (proved).  Modelled: depth counter of validate_structure.c.  Proof: induction on the recursion.
Theorems: `C43_depth_restored`, `C43_checks_independent`.

**C44 Help lists every visible option exactly once** (partial).  Modelled: help_organizer.c, help_display.c.  Proof: permutation of the visible entries; text of the screen (OrganizeProofs.v, HelpProofs.v).
Theorems: `C44_organized`, `C44_screen`, `C44_hidden_subcommand_refuted`.
The organiser places every visible entry once and the whole screen is characterised; refuted for hidden subcommands, which are listed.

**C45 Help text wrapping is lossless, bounded and terminating** (partial).  Modelled: print_wrapped_text.  Proof: loop with fuel: which widths end, what the lines are (WrapProofs.v).
Theorems: `C45_wrapped`, `C45_words`, `C45_ends`, `C45_boundary_refuted`, `C45_help_endless_refuted`, `C45_unwrapped_refuted`, `C45_exact_fit_refuted`.
Proved for widths larger than the indentation with words that fit; refuted at the boundary width (never ends), for long words and for text that fits exactly.

**C46 Choice hints list exactly the allowed values** (partial).  Modelled: format_choices*, format_range.  Proof: capacity computation and text (ChoiceProofs.v).
Theorems: `C46_strings`, `C46_integers`, `C46_floats_partial`, `C46_floats_refuted`, `C46_cut_refuted`.
Proved for strings and integers; floats are printed with %.2g (partial, refuted), and the hint is cut when put into the description.

**C47 Bounded string helpers never overflow and stay terminated** (partial).  Modelled: cross_platform.h.  Proof: checked byte buffers (BufferProofs.v).
Theorems: `C47_strcpy`, `C47_strncpy`, `C47_strcat`, `C47_strncat_partial`, `C47_strncat_beyond`, `C47_strndup`, `C47_strndup_unterminated`, `C47_refused`, `C47_strncat_refuted`.
Proved for all sizes; safe_strncat refuted: it can write past the end when the text in the destination reaches the declared size; C47_strncat_beyond says exactly what happens in that case.

**C48 Stream redirection restores the original descriptors** (partial).  Modelled: stream.c.  Proof: state machine of descriptors and pipes, induction over calls (StreamProofs.v).
Theorems: `C48_safe`, `C48_restored`, `C48_uncaptured`, `C48_others`, `C48_no_leak`, `C48_redirect`, `C48_cleanup_partial`, `C48_cleanup`, `C48_cleanup_refuted`, `C48_restore_refuted`, `C48_active`.
Proved for every sequence of calls and every failure during redirection; cleanup proved when at most standard error is captured, refuted with standard output captured, and characterised exactly in C48_cleanup; restore refuted when its unchecked dup2 fails. C48_active: stream_is_active tells exactly which standard streams do not go where they went at the start.

**C49 Re-parsing with the same context** (partial).  Modelled: argus_free.c, argus_parse.c.  Proof: the entries after argus_free, entry by entry (ReuseProofs.v); refutations by computation.
Theorems: `C49_same_line`, `C49_two_lines`, `C49_kept`, `C49_array_refuted`, `C49_set_refuted`, `C49_command_refuted`.
The effect of argus_free on a context is stated exactly; re-parsing is refuted in three ways: counts, set marks and selected subcommands survive argus_free. Without argus_free: the same line of single values gives the same context again (C49_same_line), and a second line goes on where the first ended (C49_two_lines).

**C50 Long option names are matched exactly** (partial).  Modelled: option_handle_long.c.  Proof: cut at 63 characters; refutation.
Theorems: `C50_exact_name_partial`, `C50_cut`, `C50_long_name_refuted`.
Proved for names of at most 63 characters; refuted beyond. C50_cut says what happens for every name: it is read as its first 63 characters.

**C51 Declared defaults satisfy the validators** (proved).  Modelled: validate_default_value.  Proof: follows the check of each entry.
Theorems: `C51_default_validated`.

**C52 The structure check accepts exactly the well-formed descriptions** (proved).  Modelled: all of source/core/validation.  Proof: the check succeeds exactly on `structure_ok` (StructProofs.v).
Theorems: `C52_accepts_exactly`, `C52_acyclic`.

**C53 Option lines say everything the declaration says** (partial).  Modelled: help_formatter.c.  Proof: text of an entry when the buffers suffice (DescProofs.v).
Theorems: `C53_description_partial`, `C53_attribute_refuted`, `C53_range_refuted`, `C53_default_refuted`, `C53_collection_refuted`.
Proved when the notes fit the fixed buffers; four refutations beyond.

**C54 Showing help is safe and releases its memory** (partial).  Modelled: all of source/display.  Proof: output logic with owned blocks (ShowLogic.v).
Theorems: `C54_safe_partial`, `C54_group_refuted`, `C54_exact`.
C54_exact decides every case: help ends and releases its memory exactly when no record of a group is refused (SpecGroupMemory.v lists the requests in order); C54_group_refuted is a witness of the other case, C54_safe_partial the two cases that need no look at the requests.

**C55 Usage line follows the declarations** (proved).  Modelled: usage_display.c.  Proof: text equality.
Theorems: `C55_usage`.

**C56 Command overviews list every runnable command** (partial).  Modelled: command_display.c.  Proof: text equality, membership of each line (CommandProofs.v).
Theorems: `C56_overview`, `C56_listed_partial`, `C56_below`, `C56_deep_refuted`.
Proved for two levels of the general overview and for the screen below a selected command; refuted for deeper commands.

**C57 Every error code has a description of its own** (partial).  Modelled: argus_strerror.  Proof: computation over all codes.
Theorems: `C57_named`, `C57_described_partial`, `C57_which`, `C57_refuted`, `C57_parse_refuted`.
Proved for 22 codes; refuted for the nine others, of which one is returned by argus_parse. C57_which: exactly those 22 integers are described. C57_named: a description begins with the words of the enumerator's name in errors.h.

**C58 Captured output is read back completely** (partial).  Modelled: stream.c, stdio buffering as an oracle.  Proof: invariant: pipe and stdio hold exactly what was printed and not read.
Theorems: `C58_read`, `C58_printed`, `C58_again`, `C58_memory`, `C58_buffered_refuted`, `C58_full_refuted`, `C58_lost_refuted`.
Proved for all sessions and all buffering of stdio when the text fits the pipe; refuted for text buffered before the capture, text larger than the pipe, and text unread at restore.

**C59 Checking a description ends, without undefined behaviour, with the right verdict** (partial).  Modelled: argus_init, all of source/core/validation.  Proof: monotone in the fuel, well-founded tree of tables (InitProofs.v).
Theorems: `C59_decides_partial`, `C59_silent_refuted`, `C59_custom_refuted`, `C59_cycle_refuted`.
Proved when the tables form a hierarchy and no validator is silent once one has refused the default; refuted without either. Validators of the program are modelled as printing nothing.

**C60 Every refusal is explained once, and nothing else is** (partial).  Modelled: argus_parse and everything below it.  Proof: each handler and validator prints exactly its failure; composed along the parse (ToldProofs.v).
Theorems: `C60_told_partial`, `C60_no_memory_refuted`, `C60_wrong_reason_refuted`, `C60_exit_by_environment_refuted`.
Proved for all tables without handlers or validators of the program, whatever allocations fail; refuted for out-of-memory codes and for exit options set by the environment.

**C61 Every word of an accepted command line is used** (partial).  Modelled: as C01.  Proof: induction on the reading, words matched with uses (WordsProofs.v).
Theorems: `C61_words_partial`, `C61_dash_refuted`.
Proved for all accepted lines and all words but - and --; refuted for a lone dash. The value of --flag=value counts as part of the word naming the flag and is ignored (C50).

**C62 Patterns for numbers accept exactly the numbers they are named after** (proved).  Modelled: the patterns (Regex.v), read by `compile` and given PCRE2's documented meaning by `matches`.  Proof: the language of each pattern is computed piece by piece as a predicate on strings (RegexLang.v) and compared with the numeric meaning (PatternNumbers.v); examples by an executable matcher proved equivalent (RegexProofs.v).
Theorems: `C62_port`, `C62_positive`, `C62_negative`, `C62_hex`, `C62_decimal`, `C62_newline`.
Exact languages. The final newline is a surprise of PCRE2's $ (see findings): C62_newline.

**C63 Patterns for the network accept exactly the addresses they are named after** (partial).  Modelled: as C62.  Proof: as C62 (PatternNet.v, PatternText.v); refutations by computation.
Theorems: `C63_ipv6`, `C63_ipv4_partial`, `C63_domain`, `C63_url`, `C63_http`, `C63_ipv4_refuted`, `C63_ipv6_refuted`, `C63_url_refuted`.
Exact languages proved for all five patterns; each of IPV4, IPV6, URL and HTTP refuted as an address of its kind.

**C64 Patterns for mail addresses, dates and times accept exactly those** (partial).  Modelled: as C62.  Proof: as C62 (PatternNames.v, PatternDates.v).
Theorems: `C64_email`, `C64_strict_email`, `C64_date`, `C64_moment`, `C64_date_refuted`.
Exact languages proved; refuted for days that do not exist.

**C65 Patterns for names, passwords, identifiers, files and versions accept exactly those** (partial).  Modelled: as C62; look-ahead and look-behind are modelled.  Proof: as C62 (PatternNames.v, PatternText.v).
Theorems: `C65_user`, `C65_password`, `C65_uuid`, `C65_path`, `C65_file`, `C65_version`, `C65_password_refuted`, `C65_path_refuted`.
Exact languages proved; refuted against the documented form of passwords and for paths with spaces.

**C66 A predefined pattern on an option guarantees the form of its value** (partial).  Modelled: as C62, regex_validator (Parse.v), the `#ifdef` of regex.h (`predefined`).  Proof: C24 composed with the languages of the patterns (PatternUse.v).
Theorems: `C66_validator`, `C66_taken`, `C66_stub_refuted`.
Proved under the hypothesis that PCRE2 matches as documented for the patterns of the modelled fragment (match limits not modelled); refuted for the stub patterns.

**C67 The error message names what was wrong** (partial).  Modelled: the pieces of every message (State.v, Parse.v, Handlers.v) and their text (Messages.v); PCRE2's own words are a parameter.  Proof: the events of a parse are followed through the parse (MessageProofs.v): quiet until the refusal, one message, the pointer; the texts of the rules are matched with the first problem of C21.
Theorems: `C67_rejected`, `C67_unknown_long`, `C67_missing_long`, `C67_unknown_short`, `C67_missing_short`, `C67_unknown_positional`, `C67_ambiguous`, `C67_checked`, `C67_silent`, `C67_defined`, `C67_nameless_refuted`, `C67_memory_refuted`.
Handlers and validators of the library. Proved for every token that can be refused and every rule; the texts of refused values are C68. Refuted for a nameless exclusive group and for the lack of memory.

**C68 A refused value is quoted with the reason** (proved).  Modelled: handlers and validators of the text with the pieces of their messages (Handlers.v, Parse.v), Messages.v.  Proof: the logs are threaded through the loops over elements (ListProofs.v); each handler takes the value or logs the one message of the specification (RefusedProofs.v); the invariant of C34 carries this to the call that is reached.
Theorems: `C68_refused`, `C68_environment`, `C68_decided`, `C68_determined`.
Handlers and validators of the library, enough memory, harmless values (no empty list, range below INT_MAX) as in C34; what PCRE2 says about a bad pattern is a parameter.

**C69 A refused description is reported with its faults** (partial).  Modelled: the calls of ARGUS_STRUCT_ERROR in source/core/validation and argus_struct_error (StructErrors.v), beside the statuses of Validate.v; file and line of the entries are parameters.  Proof: each loop writes exactly the texts of the faults of its entries, and nothing exactly if its status is success (FaultProofs.v); induction over the nesting of tables; the texts of refused defaults are those of C67 and C68.
Theorems: `C69_told`, `C69_silent`, `C69_no_file`, `C69_bystander_refuted`.
The hypothesis on choices is that of C67 (a list of choices that can be printed). File and line of the entries are parameters.

**C70 Single values are compared, chosen and printed by their type** (partial).  Modelled: value_utils.c (ValueUtils.v); where bytes of a value were never written, `a.raw == b.raw` is taken as false, which gives the same answer.  Proof: cases on the type; doubles by the key order of C14 (OrderProofs.v); induction on the array.
Theorems: `C70_order`, `C70_overflow`, `C70_distance_refuted`, `C70_null_refuted`, `C70_nan_refuted`, `C70_choice`, `C70_printed`, `C70_printed_list`, `C70_print_null_refuted`.
Exact for booleans, texts, numbers other than NaN and integers whose distance fits an int; undefined exactly for other integers. Refuted with null strings and NaN (below and above at once) and for printing a null string.

**C71 The check of defaults hands standard error back** (partial).  Modelled: validate_default_value (DefaultOs.v) on the descriptors, pipes and failing calls of Stream.v; the texts are those of StructErrors.v.  Proof: redirect, print, read and restore of standard error touch nothing else (DefaultOsProofs.v); induction on the validators; the reasons by C69.
Theorems: `C71_told`, `C71_long_refuted`, `C71_descriptors_refuted`, `C71_memory_refuted`.
Under the stated conditions (no failing call, messages no longer than the pipe). Refuted beyond them: blocks for ever on a long message; undefined when redirect_stderr or the allocation for the text fails.

**C72 Acceptance is decided item by item** (proved).  Modelled: argus_parse as in C34; the items are those of C01.  Proof: the handlers, checks and callbacks of a reached option answer 0 exactly for a value that SpecRefused.v calls taken (AcceptProofs.v); induction on the items from the right, then the five ways a parse ends.
Theorems: `C72_line`, `C72_permuted`, `C72_accepted`, `C72_first`, `C72_first_environment`, `C72_verdict`.
All of argus_parse's outcomes: with C21 for entries that are not in order at the end. Needs input without the hazards of C34 and a sorting qsort.

**C73 The order of different options does not matter** (proved).  Modelled: argus_parse; the items are those of C01.  Proof: carrying out a single value changes one entry and reads nothing else, and any other value does not look at that entry (ExchangeProofs.v); contents: the relations of C13 to C15 are functions of the texts (OrderLists.v).
Theorems: `C73_reordered`, `C73_lists`, `C73_maps`.
The exact result for exchanges that move a single value; the contents of lists and maps for any two lines. Custom handlers are functions of the text and the old value, see the trusted base.

**C74 A variable acts as the option at the end of the command line** (proved).  Modelled: argus_parse, load_env_vars; the same C library with an empty environment (SpecEnvironment.v).  Proof: load_env_vars carries out the items of C28 (EnvProofs.v); nothing else depends on getenv (EnvLineProofs.v).
Theorems: `C74_as_words`, `C74_same_checks`, `C74_refused`, `C74_one_variable`.
Proved for every table that passed the structure check; the texts of flags cannot be given on the command line, so lines for them do not exist.

**C75 Every request can be written as a command line** (partial).  Modelled: parse_args and argus_init (Parse.v, Validate.v); requests in SpecRequest.v without reference to the model.  Proof: the line --name, --name=text, -c, full subcommand names and -- is built by induction and read by the grammar of C01 (RequestProofs.v); the converse by induction on the reading.
Theorems: `C75_every_request`, `C75_never_given`, `C75_never_run`, `C75_enterable`, `C75_found`, `C75_options_refuted`, `C75_subcommands_refuted`.
C75_options_refuted and C75_subcommands_refuted: the structure check accepts options and subcommands that nothing on a command line can reach. Short names that are digits are outside C75_every_request, since '-5' may be a number.

**C76 Lists and maps are read back as they were written** (proved).  Modelled: the handlers for arrays and maps, argus_array_get, argus_map_get; joining in SpecListText.v.  Proof: joining and cutting are inverse (ListTextProofs.v), then C13, C15 and C18.
Theorems: `C76_texts`, `C76_integers`, `C76_pairs`, `C76_taken`, `C76_which`, `C76_which_pairs`.
Under the conditions of C34 (harmless input), which exclude the greatest int as an element; there is no way to escape a comma.

**C77 Adding an option keeps old command lines working** (partial).  Modelled: argus_parse on two contexts that differ by one entry (SpecExtend.v).  Proof: an accepted reading stays a reading of the longer table (ExtendProofs.v); carrying it out, the environment, the checks and the release commute with the extension (ExtendWhole.v).
Theorems: `C77_added_entry`, `C77_still_accepted`, `C77_abbreviation_refuted`, `C77_word_refuted`, `C77_digit_refuted`.
Options and groups at the end of a table. Refuted for subcommands and numeric positionals; an entry with a default value is set from the start and may conflict with others, so it is outside the claim.

**C78 What the help shows can be typed** (partial).  Modelled: display_help (Display.v), parse_args, the validators (Parse.v).  Proof: from the exact screen of C44 and the grammar of C01 (TrustProofs.v); the value of a shown default from the exact value of a decimal text (C17) and the boolean words (C19).
Theorems: `C78_option`, `C78_command`, `C78_option_refuted`, `C78_default`, `C78_wide_default_refuted`, `C78_offered`, `C78_wide_choice_refuted`.
Names of 1 to 63 characters without '='; defaults of int (read as int), bool and string options; integer choices and ranges of 32 bits and string choices. Refuted beyond.

**C79 The pattern validator uses PCRE2 properly** (proved).  Modelled: regex_validator on a model of the objects of PCRE2 (PcreCalls.v).  Proof: case analysis of the calls (PcreProofs.v).
Theorems: `C79_released`, `C79_decides`, `C79_model`.
PCRE2 is represented by its documented calls (PcreCalls.v); C79_model ties this to the validator used elsewhere.

**C80 What a parse prints on standard output** (partial).  Modelled: the screens of the events of a parse, in order (Stdout.v), on the whole of argus_parse and the display code.  Proof: the context at the end has the stack and the declarations of the event; then C44 and C55 for the text; handlers other than help and version emit no screen (StdoutProofs.v); a line that leaves is parsed like its beginning up to the option that leaves, so C34 needs harmless words only before it (AnywhereProofs.v).
Theorems: `C80_help_anywhere`, `C80_version_anywhere`, `C80_help_always`, `C80_version_always`, `C80_help`, `C80_version`, `C80_refused`, `C80_success`, `C80_success_refuted`.
C80_help needs the limits of C44 (texts that fit the buffers). C80_help_anywhere and C80_version_anywhere: after any words that are carried out without error, with handlers and validators of the library; C80_help_always and C80_version_always: after a path of names, without assuming that the parse is defined. C80_success_refuted: without FLAG_EXIT a help option prints its screen and the parse goes on to succeed.

**C81 A program written like the examples** (partial).  Modelled: main of examples/subcommands.c and nested_commands.c (Program.v), on argus_parse, argus_exec and argus_free.  Proof: C34, C33, C35 and C60 for the parts; parsing and checking log no action; argus_free does not depend on the log nor on the last error (ProgramProofs.v).
Theorems: `C81_defined`, `C81_action`, `C81_no_action`, `C81_released_partial`, `C81_status_refuted`.
C81_released_partial leaves out what C35 leaves out: keys given twice and the first list of an option that is refused midway. Actions are taken to change the context only by reading values. C81_status_refuted: the examples drop the status of the action, so the process ends with 0 although the action failed.

**C82 The environment is read only through declared variables** (proved).  Modelled: load_env_vars.c (Parse.v) and the whole of argus_parse; the variables that may be read are in SpecListen.v.  Proof: handlers, validators and checks do not read the environment (EnvLineProofs.v); the loops over tables are run side by side, and an entry found unset was unset when the line had been read (ListenProofs.v).
Theorems: `C82_only_declared`, `C82_own_names`.
No assumption that the parse is defined or succeeds. The rest of the C library is the same in both runs; the environment does not change during a call.

**C83 Screens that the program asks for show the selected command** (proved).  Modelled: argus_display.c (Display.v) on contexts after argus_parse.  Proof: the stack after a successful parse is the list of named subcommands, declarations never change (AskedProofs.v), then C44 and C55.
Theorems: `C83_help`, `C83_usage`, `C83_version`.
C83_help has the hypotheses of C44 (texts that fit the buffers, memory for the help).

**C84 A program can rely on the validators it declared** (proved).  Modelled: argus_parse, post_parse_validation, the access functions (Parse.v, Api.v), the validator macros (Macros.v).  Proof: a path leads to a table of the line (RelyProofs.v), where C24 applies; the validators are those of the declaration, which never changes.
Theorems: `C84_range`, `C84_length`, `C84_count`, `C84_string`, `C84_int`, `C84_float`.
Integers are read as int (as_int), the member the validators look at; the 64-bit member may lie outside the range (C25_range_refuted).

**C85 A command listed in the overview runs when its words are typed** (partial).  Modelled: display_all_commands (Display.v), the selection of subcommands (Parse.v), argus_exec (Api.v).  Proof: a path of full names is read as that many selections (TypedProofs.v), so C33 gives the action; the overview is known exactly by C56.
Theorems: `C85_runs`, `C85_listed`, `C85_hidden_refuted`, `C85_below`, `C85_below_refuted`.
The words run the command provided the parse succeeds (required options given) and the rest of the line selects no further command. Refuted for a command whose name begins the name of an earlier sibling.

**C86 Two options share a variable exactly if their names are alike** (partial).  Modelled: get_env_var_name, load_env (Parse.v).  Proof: the change of letters identifies exactly the alike ones (all pairs of characters are computed, VariablesProofs.v); the prefix is a common beginning.
Theorems: `C86_derived`, `C86_declared`, `C86_shared_refuted`.
Exact when both options are of the same kind; a derived and a declared name, or a declared name that already begins with the prefix and one that does not, may also coincide (C86_shared_refuted).

**C87 Words written after the usage line are read as it shows** (partial).  Modelled: display_usage (Display.v), parse_args, find_positional (Parse.v).  Proof: the k-th shown argument is the k-th positional of the table (TemplateProofs.v); the reading is that of C01 and C07, the line that of C83.
Theorems: `C87_read`, `C87_usage`, `C87_unreachable_refuted`.
Words that begin with '-' or with which a subcommand's name begins are excluded (C08, C09). Refuted for a variadic argument before others.

**C88 Dropping rules and rewriting texts refuses no line** (proved).  Modelled: parse_args, execute_callbacks, load_env_vars, post_parse_validation, all handlers, validators, value access, argus_exec, argus_free.  Proof: simulation between the two contexts (EaseProofs.v, EaseWhole.v, EaseAfter.v): no handler looks at more of its declaration than the type, the name, the free handler and the flags sorted/unique; validators that pass print nothing. The structure check by C52 on the specification (EaseCheck.v).
Theorems: `C88_accepted`, `C88_texts`, `C88_afterwards`, `C88_structure_not_kept`, `C88_well_formed`.
Lines that were refused may be refused with other words (the message about two possible commands shows help texts). The structure check is not kept: an optional positional before a required one and a subcommand without help text are malformed.

**C89 A refused word is refused whatever follows** (proved).  Modelled: parse_args, handle_long_option, handle_short_option, argus_parse.  Proof: induction over the words of the line for parse_args, over the letters for a cluster (StopProofs.v); induction over the grammar for the missing value.
Theorems: `C89_refused`, `C89_exited`, `C89_environment`, `C89_missing`.
Refusals with the status E_MISSING_VALUE are left out of the first theorem; the last one says what becomes of them.

**C90 A command reads its words as a program of its own** (proved).  Modelled: parse_args, handle_subcommand, load_env_vars, post_parse_validation, argus_parse, argus_get, argus_is_set, argus_count, argus_array_get, argus_map_get, argus_array_it, argus_map_it, argus_exec.  Proof: simulation: every step of the program of the command is the same step of the whole program, with one more command below the stack (NestProofs.v), put together in NestWhole.v; lookups walk the same tables with one more at the end (NestAccess.v).
Theorems: `C90_whole`, `C90_reading`, `C90_value`, `C90_collections`, `C90_unknown`, `C90_path`, `C90_action`, `C90_itself`, `C90_after`.
The program's own table is idle in C90_whole (see idle in SpecNest.v); C90_reading has no such condition and stops before environment and final checks.

## 3. Trusted base

* The Coq 8.16.1 kernel.  `Print Assumptions` of every theorem in `Props*.v` prints "Closed under
  the global context": no axiom is used.  The build check additionally lists the seven
  declarations `Coq.ssr.ssrunder.Under_rel.*` of Coq's own standard library; they come with the
  import of std++ (through ssreflect) and no theorem depends on them.
* The transcription from C to Gallina, reviewable through the line citations.
* The assumptions on libc in section 1, where a theorem states them as hypotheses.
* LP64 data model, C locale, IEEE-754 doubles (`Floats.SpecFloat` for comparison).

## 4. Findings

Each line is a behaviour of the pinned code that contradicts what a user may expect, with the
theorem that exhibits it.

Parsing
* `--` after the first `--` is dropped (`C06_every_argument_refuted`).
* A lone `-` is dropped wherever an option may stand (`C61_dash_refuted`).
* Negative numbers do not reach variadic integer positionals (`C08_variadic_refuted`).
* The exact name of a subcommand declared after a longer one is ambiguous (`C09_exact_name_refuted`), although the overview lists it (`C85_hidden_refuted`).
* The screen for a command that cannot be run leaves out the commands before it: `prog outer inner`
  lists `inner leaf`, which the program refuses (`C85_below_refuted`).
* The usage line shows arguments behind a variadic one that no word reaches
  (`C40_optional_variadic_refuted`, `C87_unreachable_refuted`).
* Making a positional optional or dropping a help text can make a description malformed, though
  no line would be refused for it (`C88_structure_not_kept`).
* Typed long names are cut to 63 characters before comparison (`C50_long_name_refuted`).
* The structure check accepts options whose only name contains '=' or is longer than 63 characters, and
  subcommands named like `-x`; no command line reaches them (`C75_options_refuted`, `C75_subcommands_refuted`).
* Lookup by path accepts prefixes of subcommand names (`C30_prefix_refuted`).
* One variable may set two options, `--dry-run` and `--dry_run` or variables `X` and `APP_X` under the
  prefix APP, and the check of the description does not object (`C86_shared_refuted`).

Values
* Integers with trailing garbage or no digits are accepted (`C17_garbage_refuted`).
* A range that ends at the greatest int overflows (`C18_greatest_refuted`); so does every parse that
  reaches a list of integers with 2147483647 in it (`C18_greatest`).
* UNIQUE drops close but different doubles (`C14_unique_float_refuted`), and with SORTED and a
  repeated option also numbers that nothing kept is close to (`C14_drift_refuted`).
* Sorting maps by value compares the low 32 bits (`C16_wide_integers_refuted`).
* Range and choice validators judge the low 32 bits, and the bits of doubles
  (`C25_range_refuted`, `C25_range_float_refuted`).

* `cmp_value` (called only by tests) overflows on distant integers, and puts a null string or a NaN
  both below and above the others (`C70_distance_refuted`, `C70_null_refuted`, `C70_nan_refuted`);
  `print_value` hands a null string to `%s` (`C70_print_null_refuted`).

Defaults and environment
* DEFAULT of a double is stored as an integer (`C26_float_refuted`); only zero reads back right (`C26_float`).
* An option with a default counts as set (`C27_default_refuted`), which suppresses its environment
  variable (`C28_default_suppresses_refuted`).
* Names of variables are cut (`C29_long_name_refuted`, `C29_help_cut_refuted`).
* An exit option set by the environment makes the parse fail with status 1, code 0 and no message
  (`C37_exit_by_environment_refuted`, `C60_exit_by_environment_refuted`, `C74_refused`).

Checks after parsing
* FLAG_REQUIRED on an option is never checked (`C21_required_option_refuted`).  The test
  `missing_required` of tests/unit/test_robustness.c asserts that it is, and would fail; it is the one
  test file that no meson.build lists, so it is never run.
* V_REGEX on a flag refuses every parse that sets the flag, with "Internal error" and PCRE2's code -51,
  because a flag has no text (`tr_no_value` in SpecRefused.v, C68).
* The status of a user validator is returned without setting the code (`C37_user_validator_refuted`).

Memory
* A list without elements leads to a null dereference (`C34_empty_list_refuted`, `C31_empty_list_refuted`).
* DEFAULT on a collection leads to an invalid realloc (`C34_array_default_refuted`).
* A malformed overriding environment variable on a collection frees its old buffer twice
  (`C34_env_override_refuted`).
* Reading a collection after a failed parse goes through NULL (`C34_read_after_failure_refuted`).
* Leaks: repeated keys, lists refused midway (`C35_repeated_key_refuted`, `C35_refused_list_refuted`).
  A refused number of a variadic positional that has no values yet loses its buffer in the same way: it
  is allocated before the number is looked at, but is_allocated is not set.  These are the only leaks:
  `C35_released_partial` and `C35_lost` cover all other ends of a parse; `C35_midway` shows that a first
  list refused midway loses only blocks of its own.
* A failed first allocation of an integer array is written through NULL (`C36_first_refuted`), a
  failed growth writes behind the buffer (`C36_growth_refuted`); other handlers report the wrong
  reason (`C60_wrong_reason_refuted`) or nothing (`C60_no_memory_refuted`).
* When the scratch table for leaving out repeated values of a map cannot be allocated, the parse
  succeeds and the repeated values stay (`C36_unique_values_refuted`, multi_values.c 270-272).
* Counts, set marks and selected subcommands survive argus_free (`C49_*_refuted`).

Adding entries
* A new subcommand can break command lines that were accepted: an abbreviation becomes ambiguous, a
  positional argument becomes a command (`C77_abbreviation_refuted`, `C77_word_refuted`).

Help against parser
* A default beyond 32 bits is shown with its low half: 4294967301 is shown as 5
  (`C78_wide_default_refuted`).
* An integer choice beyond 32 bits is shown but can never be chosen (`C78_wide_choice_refuted`).
* Options with '=' in the name and shadowed subcommands are shown but cannot be typed (`C78_option_refuted`).

Structure check
* A positional may share its name with an option (`C39_keys_unique_refuted`).
* Optional variadic positionals and mixtures with subcommands are accepted
  (`C40_optional_variadic_refuted`, `C40_mixed_refuted`).
* Nesting overflows the command stack without the check or with repeated parsing
  (`C42_unchecked_refuted`, `C42_repeated_refuted`).
* NULL is printed with %s, and cyclic descriptions never end (`C59_silent_refuted`,
  `C59_custom_refuted`, `C59_cycle_refuted`).
* Once an optional positional stands next to POSITIONAL_MANY (or a subcommand next to a positional),
  every later entry is reported as well, whatever it is (`C69_bystander_refuted`).
* The report prints the entry's file name with %s; it is NULL if the file with the table was compiled
  without ARGUS_DEBUG while the caller of argus_init was compiled with it (`C69_no_file`).

Screens
* Hidden subcommands are listed (`C44_hidden_subcommand_refuted`).
* Wrapping does not end at one width and does not wrap at others (`C45_*_refuted`).
* Hints, notes, ranges and defaults are cut or dropped (`C46_*_refuted`, `C53_*_refuted`).
* A failed allocation in a group is dereferenced (`C54_group_refuted`).
* Commands nested deeper than two levels are not listed (`C56_deep_refuted`).
* Nine codes have no description (`C57_refuted`, `C57_parse_refuted`).
* `safe_strncat` can write past the end (`C47_strncat_refuted`).

Streams
* `stream_cleanup_all` does not restore standard output (`C48_cleanup_refuted`); `stream_restore`
  does not check dup2 (`C48_restore_refuted`) and throws away unread text (`C58_lost_refuted`).
* Text buffered before the capture is captured (`C58_buffered_refuted`); a full pipe blocks for
  ever (`C58_full_refuted`).
* A default that is refused with a message longer than a pipe holds (65536 bytes on Linux) blocks
  the program for ever (`C71_long_refuted`); `validate_default_value` ignores the result of
  redirect_stderr and prints what read_stderr gives, so without a free descriptor or without memory
  the null pointer is printed with `%s` (`C71_descriptors_refuted`, `C71_memory_refuted`).

Patterns
* The pattern for IPv4 addresses has no `$` (`C63_ipv4_refuted`); all others accept a final newline
  (`C62_newline`).
* The pattern for IPv6 accepts `fe80:%eth0` and refuses valid mixed addresses (`C63_ipv6_refuted`).
* URLs with one-letter hosts are refused, URLs with a space accepted (`C63_url_refuted`).
* 2023-02-31 is accepted as a date (`C64_date_refuted`).
* Passwords with signs and paths with spaces are refused (`C65_password_refuted`, `C65_path_refuted`).
* regex.h replaces every pattern by "" in programs compiled without ARGUS_REGEX, while the flag is
  not exported by the build of the library: the validators then accept everything
  (`C66_stub_refuted`).

Messages
* An exclusive group may lack a name; the conflict message then prints the null pointer with `%s`
  (`C67_nameless_refuted`).
* When allocating the key or value of a map fails, the message prints that null pointer with `%s`
  (`C67_memory_refuted`).

Examples
* `main` of examples/subcommands.c and nested_commands.c drops the status of `argus_exec` and returns
  0, so a failing action is a success to the shell (`C81_status_refuted`).

Seen in the code, without a theorem: the environment note merges into a help text that ends with a
parenthesis; `display_available_subcommands` shows paths without the program and its parents; the
hint of a collection is cut at 63 characters; the Windows `fcntl` is a no-op, so reading a captured
stream blocks there; `stream_read` loses the text when memory runs out.

## 5. Seeded bugs

`seeded/LOG.jsonl` has one line per wrong program: the model was edited in a scratch copy, broken
lemmas were admitted one after another, and the theorems of `Props*.v` that lost their proof were
listed.  Theorems that survived an edit that falsifies their claim were tightened.

How to read the lines: before each run the theorems were named that state the sentence the edit
makes false.  `theorems_of_the_claim_still_proved` was measured against those names only, so an
empty list does not say that every theorem of the property failed.  In the lines whose claim begins
with "Cnn: " it was afterwards widened to all theorems of the property in the files rebuilt; those listed there state
other sentences, and were judged by reading to stay true, unless `theorems_tightened` names them.  In the lines behind s232 (in the order of
the file) and some before it only the files with the theorems of the claim were rebuilt, so
`theorems_failed` leaves out theorems of other properties there.

Changes s263 and s268 showed a common weakness: a theorem that speaks of the grammar (`reads`) alone
survives any change of the parser, since only C01 ties the two.  The theorems of the manifest were
searched for it; C87_read, C78_option, C78_command and the refutations C75_options_refuted,
C75_subcommands_refuted and C78_option_refuted were tightened, and C75_never_run, C75_found and
C41_run put beside theorems of that kind.  C01_one_reading, C41_handlers, C42_at_most_8 (beside
C42_stack), C75_never_given and C75_enterable still speak of the grammar alone.
