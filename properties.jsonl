{"id": "C01", "title": "Command-line grammar: parsing performs exactly the documented assignments, in order", "statement": "A call of argus_parse on a command line runs the option handlers for exactly the (option, text) pairs that a declarative grammar of the documented syntax assigns to that command line (long forms --n, --n=v, --n v; short clusters; attached and separate short values; `--`; subcommands; positionals), in left-to-right order, and stops at the first pair whose processing reports a status other than success; when the grammar rejects a token the corresponding error code is returned and nothing to its right has any effect.", "quantifier": "all option tables (any nesting), all argument vectors, all initial states of the options, all custom handlers", "why_tests_cant": "the set of argument vectors is infinite and the parser has look-ahead, clustering, mode switches and recursion; tests sample a few dozen vectors", "anchors": ["source/core/parsing/parse_args.c: parse_args", "source/core/parsing/option_handle_long.c: handle_long_option", "source/core/parsing/option_handle_short.c: handle_short_option", "source/core/parsing/option_handle_positional.c: handle_positional"]}
{"id": "C02", "title": "--name=value and --name value are interchangeable", "statement": "For an option that takes a value, replacing `--name=value` by the two arguments `--name` `value` anywhere in a command line (before `--`) changes nothing: same status, same option values, same heap, same diagnostics.", "quantifier": "all tables, all option names without '=', all values (including empty, and starting with '-' ), all surrounding arguments, all states", "why_tests_cant": "equality of two runs over all contexts; tests check single instances of one form", "anchors": ["source/core/parsing/option_handle_long.c: handle_long_option"]}
{"id": "C03", "title": "Short-flag clusters are interchangeable with separate short flags", "statement": "Replacing a cluster `-abc\u2026` by `-a` `-bc\u2026` gives the same parse when `a` is a flag (and the remainder does not begin a negative number for a numeric positional).", "quantifier": "all tables, all clusters of any length, all contexts", "why_tests_cant": "clusters have unbounded length and context; unit tests use two or three fixed ones", "anchors": ["source/core/parsing/option_handle_short.c: handle_short_option", "source/core/parsing/parse_args.c: parse_args"]}
{"id": "C04", "title": "-ovalue and -o value are interchangeable", "statement": "For a short option taking a value, `-ovalue` and the two arguments `-o` `value` give the same parse, for every non-empty value.", "quantifier": "all tables, values, contexts", "why_tests_cant": "equality of two runs over all values and contexts", "anchors": ["source/core/parsing/option_handle_short.c: handle_short_option"]}
{"id": "C05", "title": "Short and long spelling name the same option", "statement": "For an option declared with both a short and a long name (in a table whose names are unique), `-o value` and `--opt value` give the same parse.", "quantifier": "all tables accepted by the structure check, all options and values", "why_tests_cant": "ranges over tables and values", "anchors": ["source/core/parsing/option_handle_short.c", "source/core/parsing/option_handle_long.c", "source/utils/option_lookup.c"]}
{"id": "C06", "title": "`--` ends option processing", "statement": "After the first `--` every further argument is handed to the next positional, in order, whatever it looks like. (The implementation drops every further `--`.)", "quantifier": "all tables, all argument suffixes", "why_tests_cant": "universally quantified over suffixes; the existing tests never repeat `--`", "anchors": ["source/core/parsing/parse_args.c: parse_args"]}
{"id": "C07", "title": "Positionals are filled in declaration order, a variadic one takes the rest", "statement": "The k-th positional argument goes to the k-th declared positional; if a variadic positional is declared at position j, it receives every positional argument from the j-th on, in order; without one, an extra argument is rejected with an invalid-argument error.", "quantifier": "all tables (any interleaving with options and groups), any number of arguments", "why_tests_cant": "unbounded number of positionals and interleavings", "anchors": ["source/utils/option_lookup.c: find_positional", "source/core/parsing/option_handle_positional.c: handle_positional"]}
{"id": "C08", "title": "Negative numbers reach numeric positionals", "statement": "An argument of the form -<digit>\u2026 or -.<digit>\u2026 is treated as a value, not as an option cluster, when the positional that is next in line is numeric. Otherwise it is a cluster of short options and refused as unknown, unless its first character was declared as a short name. (Fails for variadic numeric positionals, which fall under the second case.)", "quantifier": "all tables, all positions, all digit strings", "why_tests_cant": "depends on the interplay of position counter and table contents", "anchors": ["source/core/parsing/parse_args.c: parse_args"]}
{"id": "C09", "title": "Subcommand selection by name or unambiguous prefix", "statement": "A word selects the subcommand whose name it equals; otherwise the only subcommand of which it is a prefix; if it is a prefix of several and equals none, parsing fails with the ambiguity error. (The implementation also reports ambiguity for an exact name that is declared after a longer name it prefixes.)", "quantifier": "all tables, all words, all declaration orders", "why_tests_cant": "depends on declaration order; tests have one order only", "anchors": ["source/core/parsing/parse_args.c: find_subcommand"]}
{"id": "C10", "title": "Unknown options and missing values are rejected", "statement": "Parsing never succeeds on a command line containing an undeclared option (in option position) or an option whose required value is absent; the error is invalid-argument resp. missing-value, and error_code holds it.", "quantifier": "all tables, all argument vectors, any position of the offending token", "why_tests_cant": "negative property over all inputs", "anchors": ["source/core/parsing/option_handle_long.c", "source/core/parsing/option_handle_short.c", "source/api/argus_parse.c: argus_parse"]}
{"id": "C11", "title": "Subcommand isolation", "statement": "Parsing modifies only options of the root table and of the subcommands on the command line (and nothing of these apart from value bookkeeping): options of subcommands that were not selected keep exactly their state, and names, types, flags, validators and tables are never modified.", "quantifier": "all option trees, all argument vectors, all environments", "why_tests_cant": "frame property: about everything that does not change", "anchors": ["source/core/parsing/parse_args.c", "source/core/parsing/load_env_vars.c", "source/core/parsing/execute_callbacks.c"]}
{"id": "C12", "title": "Scalar options: the last occurrence wins", "statement": "After a successful parse, a scalar option holds the value obtained from the last text assigned to it (command line in order, then environment), independent of all earlier occurrences and of all other options.", "quantifier": "all histories of occurrences, all scalar types", "why_tests_cant": "any number of occurrences interleaved with other options", "anchors": ["source/core/parsing/execute_callbacks.c", "source/callbacks/handlers/int_handler.c", "source/callbacks/handlers/string_handler.c", "source/callbacks/handlers/bool_handler.c", "source/callbacks/handlers/flag_handler.c", "source/callbacks/handlers/float_handler.c"]}
{"id": "C13", "title": "Array options accumulate every occurrence in order", "statement": "Without sorting/uniqueness flags, the array of an array option after any number of occurrences is the concatenation, in order, of the elements of each occurrence; argus_count is its length and argus_array_get(i) is its i-th element.", "quantifier": "all sequences of occurrences of any length (beyond the growth thresholds of the buffer), all element texts", "why_tests_cant": "buffer growth makes behaviour depend on total count; tests stay below or just above 8 elements", "anchors": ["source/callbacks/handlers/array_int_handler.c", "source/callbacks/handlers/array_string_handler.c", "source/callbacks/handlers/array_float_handler.c", "source/utils/multi_values.c: adjust_array_size"]}
{"id": "C14", "title": "Sorted and unique arrays", "statement": "With the sorted flag the array is always ordered and is a permutation of the accumulated elements; with the unique flag it contains each element exactly once (first occurrences, in order, when not sorted); with both it is the strictly increasing list of the distinct elements. (Refuted for doubles, for which \"the same\" is a difference below 0.0000001: what is kept is then stated exactly, and with both flags a number can be dropped although none kept is close to it.)", "quantifier": "all sequences of occurrences and elements; every qsort satisfying the C standard", "why_tests_cant": "functional correctness of in-place sort/dedup on accumulating buffers over all inputs", "anchors": ["source/utils/multi_values.c: apply_array_flags, make_int_array_unique, make_string_array_unique, make_float_array_unique, sort_int_array, sort_string_array"]}
{"id": "C15", "title": "Map options behave as finite maps", "statement": "Without the unique-value flag, after any number of occurrences a map option holds each key once and associates to it the value of the last pair given for that key; keys stay in order of first appearance when not sorted; with the sorted-by-key flag they are in increasing order; argus_map_get returns exactly that value and the key-not-found error otherwise.", "quantifier": "all sequences of key=value lists", "why_tests_cant": "history-dependent over unbounded sequences", "anchors": ["source/callbacks/handlers/map_string_handler.c", "source/callbacks/handlers/map_int_handler.c", "source/callbacks/handlers/map_bool_handler.c", "source/callbacks/handlers/map_float_handler.c", "source/utils/multi_values.c: map_find_key, apply_map_flags", "source/api/argus_value_access.c: argus_map_get"]}
{"id": "C16", "title": "Unique-value and sorted-by-value maps", "statement": "With the unique-value flag no two keys of a map carry the same value afterwards, and the surviving pairs are pairs that were there before; with the sorted-by-value flag values are in increasing order and the set of pairs is unchanged.", "quantifier": "all maps, every qsort satisfying the C standard", "why_tests_cant": "in-place compaction over all inputs", "anchors": ["source/utils/multi_values.c: make_map_values_unique, sort_map_by_value, apply_map_flags"]}
{"id": "C17", "title": "Integer texts denote their value", "statement": "For every integer n in the 64-bit range, the decimal text of n given to an integer option is stored as n; texts outside saturate. (Texts that are not numbers are not rejected: refuted.)", "quantifier": "all 2^64 integers; all texts", "why_tests_cant": "domain too large for testing", "anchors": ["source/callbacks/handlers/int_handler.c: int_handler", "source/callbacks/handlers/variadic_int_handler.c", "source/callbacks/handlers/map_int_handler.c"]}
{"id": "C18", "title": "Integer ranges a-b expand to all integers between", "statement": "For an integer array option, the text of a-b (also with negative bounds and with a greater than b) contributes exactly min(a,b), \u2026, max(a,b) in increasing order, for all 32-bit a, b below the maximum; a plain number contributes itself. (An upper bound of INT_MAX is undefined behaviour.)", "quantifier": "all pairs of 32-bit integers, in any position of a comma list", "why_tests_cant": "domain is 2^64 pairs; separator search with signs is subtle", "anchors": ["source/callbacks/handlers/array_int_handler.c: search_range_separator, parse_int_range, add_range_values"]}
{"id": "C19", "title": "Boolean words", "statement": "A boolean option accepts exactly the documented words (and 0x1, 0b1, 0x0, 0b0), in any letter case, maps them to the documented truth values and rejects every other text with an invalid-argument error, leaving the stored value unchanged.", "quantifier": "all texts, all letter-case variants", "why_tests_cant": "all case combinations and all non-words", "anchors": ["source/callbacks/handlers/bool_handler.c: string_to_bool, bool_handler", "source/callbacks/handlers/map_bool_handler.c"]}
{"id": "C20", "title": "List splitting", "statement": "Splitting a list text at its separators yields exactly the maximal non-empty separator-free runs, in order; no element is empty or contains a separator, and nothing is lost; allocation failure anywhere releases everything.", "quantifier": "all texts, all separator sets, all allocation-failure schedules", "why_tests_cant": "all strings; failure injection at every allocation", "anchors": ["source/utils/strings.c: split, count_words, word_len, skip_charset, free_split"]}
{"id": "C21", "title": "Required positionals are enforced", "statement": "argus_parse succeeds only if every required positional of the root table and of every selected subcommand has been set; otherwise it fails with the missing-required error. (FLAG_REQUIRED on non-positional options is not enforced: refuted.)", "quantifier": "all tables and argument vectors", "why_tests_cant": "universal over inputs; documented for options as well", "anchors": ["source/core/parsing/post_parse_validation.c: validate_options_set"]}
{"id": "C22", "title": "Dependencies and conflicts are enforced", "statement": "After a successful parse, for every set option of the root table and of every selected subcommand: every option it requires is set and no option it conflicts with is set (in the same table).", "quantifier": "all tables, argument vectors, environments", "why_tests_cant": "relation between arbitrary subsets of options", "anchors": ["source/core/parsing/post_parse_validation.c: validate_required, validate_conflicts, validate_options_set"]}
{"id": "C23", "title": "Exclusive groups", "statement": "After a successful parse at most one member of every exclusive group is set; two set members always give the exclusive-group error (unless an earlier error is reported).", "quantifier": "all tables with any number of groups, all subsets of options", "why_tests_cant": "all subsets of options", "anchors": ["source/core/parsing/post_parse_validation.c: validate_options_set"]}
{"id": "C24", "title": "Validators hold after success", "statement": "After a successful parse, every post-validator attached to every set option of the root table and selected subcommands accepts that option's final state, and every text that reached a handler was accepted by all pre-validators of its option.", "quantifier": "all tables, validators (including user functions), argument vectors", "why_tests_cant": "universal over inputs and validators", "anchors": ["source/core/parsing/post_parse_validation.c: call_validators", "source/core/parsing/execute_callbacks.c: execute_callbacks"]}
{"id": "C25", "title": "Range, length, count and choice validators decide their documented condition", "statement": "Each built-in validator accepts exactly when the documented condition on the value read through the accessor of the option's type holds. (Holds for 32-bit integers, strings and counts; fails for 64-bit integers and for floating-point options.)", "quantifier": "all values and bounds", "why_tests_cant": "domain 2^64 and beyond", "anchors": ["source/callbacks/validators/range_validator.c", "source/callbacks/validators/length_validator.c", "source/callbacks/validators/count_validator.c", "source/callbacks/validators/choices_validator.c"]}
{"id": "C26", "title": "Default values are delivered", "statement": "An option that is not mentioned on the command line nor in the environment yields, through argus_get, exactly the value written in DEFAULT(...). (Fails for floating-point options.)", "quantifier": "all tables, argument vectors not mentioning the option, all default values", "why_tests_cant": "domain of values; frame property", "anchors": ["includes/argus/options.h: DEFAULT", "source/api/argus_value_access.c: argus_get"]}
{"id": "C27", "title": "argus_is_set tells whether the user supplied the option", "statement": "After a successful parse argus_is_set(name) is true exactly when the option occurred on the command line or was supplied by the environment or has a default. (The documentation promises: not for defaults \u2014 refuted.)", "quantifier": "all tables, argument vectors, environments", "why_tests_cant": "iff over all histories", "anchors": ["source/api/argus_value_access.c: argus_is_set", "includes/argus/options.h: DEFAULT", "source/core/parsing/execute_callbacks.c"]}
{"id": "C28", "title": "Precedence of command line, environment and default", "statement": "An option bound to an environment variable takes the command-line value if given (unless it has the override flag), else the environment value, else its default. (Refuted: a default suppresses the environment.)", "quantifier": "all tables, argument vectors, environments", "why_tests_cant": "combination of three sources over all options", "anchors": ["source/core/parsing/load_env_vars.c: load_env, load_env_vars"]}
{"id": "C29", "title": "Environment variable naming", "statement": "The variable consulted for an option is the documented one: the explicit name or the upper-cased long name with '-' replaced by '_', prefixed by the program prefix and '_' unless prefixing is disabled or already present; names derived automatically contain neither '-' nor lower-case letters; and the help text shows the very name that is consulted.", "quantifier": "all option names, prefixes, flags", "why_tests_cant": "all strings", "anchors": ["source/core/parsing/load_env_vars.c: get_env_var_name", "source/display/help/help_formatter.c: get_env_var_name_for_display"]}
{"id": "C30", "title": "Lookup by path", "statement": "For a name path a.b.opt the access functions return the option `opt` of the table reached by the selected subcommands a, b; a bare name finds the innermost selected table declaring it; `.opt` the root. (Refuted: components are matched by prefix.)", "quantifier": "all trees, selections and paths", "why_tests_cant": "all strings; prefix aliasing is invisible to tests with distinct initials", "anchors": ["source/utils/option_lookup.c: find_option_by_active_path, find_option_from_relative_path"]}
{"id": "C31", "title": "Element access is bounds-checked and complete", "statement": "argus_array_get / argus_map_get never read outside the collection: they return the element for indices below argus_count (resp. present keys) and set the documented error code and return zero otherwise. (Refuted for a collection given a list without elements such as \",\".)", "quantifier": "all states reachable by parsing, all indices and keys", "why_tests_cant": "all reachable states", "anchors": ["source/api/argus_value_access.c: argus_array_get, argus_map_get"]}
{"id": "C32", "title": "Iterators visit every element exactly once, in order, and can be restarted", "statement": "Calling argus_array_next (argus_map_next) until it returns false visits exactly the elements (pairs) of the collection in order, never reads outside it, keeps returning false afterwards, and after a reset starts over.", "quantifier": "all collections, any number of calls and resets", "why_tests_cant": "unbounded histories of calls", "anchors": ["source/api/argus_value_access.c: argus_array_it, argus_array_next, argus_array_reset, argus_map_it, argus_map_next, argus_map_reset"]}
{"id": "C33", "title": "argus_exec runs the selected command", "statement": "argus_exec runs the action of the innermost selected subcommand and returns its result; without a selected subcommand it reports no-command, without an action it reports invalid-handler, and in these cases runs nothing.", "quantifier": "all trees, selections of any depth", "why_tests_cant": "all selections", "anchors": ["source/api/argus_exec.c: argus_exec"]}
{"id": "C34", "title": "Parsing is memory-safe", "statement": "For a table built with the public macros, argus_init followed by argus_parse, any accesses and argus_free never performs an out-of-bounds access, use after free, double free, or read of an uninitialised cell, whatever the command line and environment. (Holds under stated guards; refuted without them.)", "quantifier": "all accepted tables, all argument vectors, all environments", "why_tests_cant": "absence of undefined behaviour over all inputs", "anchors": ["source/api/argus_parse.c", "source/utils/multi_values.c", "source/callbacks/handlers/*", "source/core/parsing/load_env_vars.c"]}
{"id": "C35", "title": "argus_free releases everything exactly once", "statement": "After argus_free every heap block allocated by parsing has been released exactly once; calling it again does nothing; a parse that fails or leaves has released everything itself. (Refuted: pairs with a repeated key leak, lists failing midway leak.)", "quantifier": "all reachable states", "why_tests_cant": "all reachable states and histories of calls", "anchors": ["source/api/argus_free.c", "source/utils/value_utils.c: free_option_value", "source/callbacks/handlers/default_free.c", "source/callbacks/handlers/array_string_handler.c: free_array_string", "source/callbacks/handlers/*: free_map_*"]}
{"id": "C36", "title": "Allocation failure is reported, not exploited", "statement": "If an allocation fails during parsing, argus_parse returns an error and performs no invalid memory access. A context whose entries all take single values allocates nothing, so which allocations fail makes no difference to it. If argus_parse returns 0 and no entry that received a text asks for repeated values to be left out, then no allocation failed during it, and the context is the one the same parse gives when memory never runs out. (Refuted: a failed growth of an array is ignored; a failed scratch allocation for leaving out repeated values keeps them silently.)", "quantifier": "all allocation-failure schedules, argument vectors", "why_tests_cant": "failure at every allocation point of every run", "anchors": ["source/utils/multi_values.c: adjust_array_size, adjust_map_size", "source/callbacks/handlers/*"]}
{"id": "C37", "title": "Returned status and error_code agree", "statement": "When argus_parse returns, error_code equals the returned status, for errors raised by the library, its handlers and validators, wherever they occur. (Refuted for user validators run after parsing, for exit options triggered by the environment, and for variables whose text cannot be stored for lack of memory.)", "quantifier": "all runs", "why_tests_cant": "all error paths", "anchors": ["source/api/argus_parse.c", "includes/argus/errors.h: argus_parsing_error"]}
{"id": "C38", "title": "Exit options stop parsing immediately", "statement": "When an option with the exit flag (help, version) is processed on the command line, its handler has run, no later argument has any effect, everything is released and the process exits with success \u2014 even if the rest of the line is invalid and required arguments are missing.", "quantifier": "all tables, all argument suffixes", "why_tests_cant": "universally quantified over what follows", "anchors": ["source/core/parsing/execute_callbacks.c", "source/api/argus_parse.c"]}
{"id": "C39", "title": "Structure check guarantees unique option names", "statement": "In a table accepted by argus_init no two options share a short name or a long name, at any nesting level. (Names shared with positionals and groups declared earlier are not detected: refuted.)", "quantifier": "all tables", "why_tests_cant": "quadratic check over all tables", "anchors": ["source/core/validation/validate_structure.c: validate_naming, lname_is_unique"]}
{"id": "C40", "title": "Structure check guarantees sane placement", "statement": "In an accepted table: a help option exists; no required positional follows an optional one; no positional follows a required variadic positional; required positionals and subcommands are not mixed; no option is listed after a subcommand. (Refuted for optional variadic positionals.)", "quantifier": "all tables", "why_tests_cant": "state machine over all tables", "anchors": ["source/core/validation/validate_structure.c: validate_placement"]}
{"id": "C41", "title": "Structure check guarantees resolvable dependencies and callable handlers", "statement": "In an accepted table every option and positional has a handler, every name in a requirement or conflict list denotes an entry of the same table and none is in both lists; therefore parsing never calls a null handler.", "quantifier": "all tables", "why_tests_cant": "all tables, connects two phases", "anchors": ["source/core/validation/validate_arguments.c: validate_dependencies, validate_option, validate_positional", "source/core/parsing/execute_callbacks.c"]}
{"id": "C42", "title": "Subcommand nesting never overflows the command stack", "statement": "For an accepted table no command line pushes more subcommands than the stack can hold. (Without the structure check and after repeated parsing the stack overflows: refuted.)", "quantifier": "all tables, all argument vectors, all numbers of parse calls", "why_tests_cant": "needs depth-8 tables and adversarial inputs", "anchors": ["source/core/parsing/option_handle_subcommand.c", "source/core/validation/validate_containers.c: validate_subcommand", "includes/argus/types.h: MAX_SUBCOMMAND_DEPTH"]}
{"id": "C43", "title": "Structure check restores its depth counter", "statement": "argus_init leaves the nesting counter as found when it accepts a table, so checking one table never influences checking another.", "quantifier": "all sequences of accepted tables", "why_tests_cant": "history of calls through a static variable", "anchors": ["source/core/validation/validate_containers.c: validate_subcommand"]}
{"id": "C44", "title": "Help lists every visible option exactly once", "statement": "The help organiser places every option that is not hidden exactly once (in its group or the ungrouped section, declaration order preserved), never a hidden one, and every positional and subcommand once.", "quantifier": "all tables", "why_tests_cant": "all tables", "anchors": ["source/display/help/help_organizer.c: organize_options, find_or_create_group, add_option_to_list"]}
{"id": "C45", "title": "Help text wrapping is lossless, bounded and terminating", "statement": "For every text and every width larger than the indentation, wrapping terminates, no line exceeds the available width, and the words and characters of the text appear in order (only the space at each break is dropped). (Refuted at the boundary width: the loop never ends.)", "quantifier": "all texts, all widths and indentations", "why_tests_cant": "non-termination at one configuration; all strings", "anchors": ["source/display/help/help_formatter.c: print_wrapped_text"]}
{"id": "C46", "title": "Choice hints list exactly the allowed values", "statement": "The hint generated for a choice validator is the |-separated list of the allowed values, in order and never truncated.", "quantifier": "all lists of choices", "why_tests_cant": "buffer-size arithmetic over all inputs", "anchors": ["source/callbacks/validators/choices_validator.c: format_choices_validator"]}
{"id": "C47", "title": "Bounded string helpers never overflow and stay terminated", "statement": "The safe string functions never write outside the destination, always leave a terminated string when they succeed and leave the destination unchanged when they refuse.", "quantifier": "all sources, destinations and sizes (including zero)", "why_tests_cant": "boundary arithmetic", "anchors": ["includes/argus/internal/cross_platform.h: safe_strcpy, safe_strncpy, safe_strcat, safe_strncat, safe_strndup"]}
{"id": "C48", "title": "Stream redirection restores the original descriptors", "statement": "After any sequence of redirect, read, restore and print calls, every standard stream that is not captured is connected to what it was connected to at the start, no other descriptor is touched, none is leaked, and cleanup restores every captured stream. (Refuted for cleanup with standard output captured and for a failing dup2 in restore.)", "quantifier": "all sequences of calls", "why_tests_cant": "histories over process-global state", "anchors": ["source/utils/stream.c: stream_redirect, stream_restore, stream_cleanup_all"]}
{"id": "C49", "title": "Re-parsing with the same context", "statement": "Calling argus_free and argus_parse again on the same context behaves like a first parse. Exactly this changes when argus_free is called: every allocated value of the tables in play becomes NULL and is marked not allocated. (The first sentence is refuted: counts, capacities, set marks and the command stack are kept.) Without argus_free in between, a second parse goes on where the first ended: it does what one parse of both lines does, and the same line of single values changes nothing.", "quantifier": "all histories of parse/free", "why_tests_cant": "histories of API calls", "anchors": ["source/api/argus_parse.c", "source/utils/value_utils.c: free_option_value"]}
{"id": "C50", "title": "Long option names are matched exactly", "statement": "`--name` selects the option whose long name is exactly `name`. (Refuted for names longer than 63 characters: the text is truncated first. For all names: the typed name is read exactly like its first 63 characters.)", "quantifier": "all names", "why_tests_cant": "all strings, buffer boundary", "anchors": ["source/core/parsing/option_handle_long.c: handle_long_option"]}
{"id": "C51", "title": "Declared defaults satisfy the validators", "statement": "In a description accepted by argus_init the default of every option is accepted by each of the option's value validators.", "quantifier": "all tables, all validators", "why_tests_cant": "all combinations of defaults and validators", "anchors": ["source/core/validation/validate_arguments.c: validate_default_value"]}
{"id": "C52", "title": "The structure check accepts exactly the well-formed descriptions", "statement": "argus_init returns a context if and only if every table reachable from the root satisfies the naming, placement and entry rules and no chain of subcommands is longer than eight; in particular it never accepts a cyclic description.", "quantifier": "all tables, all nestings", "why_tests_cant": "completeness over all tables; cyclic descriptions do not terminate", "anchors": ["source/core/validation/validate_structure.c: validate_structure", "source/api/argus_init.c"]}
{"id": "C53", "title": "Option lines say everything the declaration says", "statement": "The description printed for an option is its help text followed by the marks, the default, the range or choice note and the environment note that its declaration calls for, each in full. (Proved for declarations whose notes fit the fixed buffers; refuted for longer ranges, defaults and attribute lists and for defaults of collections.)", "quantifier": "all declarations", "why_tests_cant": "buffer boundaries; every combination of declaration fields", "anchors": ["source/display/help/help_formatter.c: build_option_description"]}
{"id": "C54", "title": "Showing help is safe and releases its memory", "statement": "For every accepted description and every terminal width that leaves room for text, printing the help screen ends, never commits undefined behaviour and leaves no allocation behind, whatever allocations fail. (Proved with ample memory, and for failing allocations when the table has no groups; refuted with groups: a failed allocation is dereferenced.)", "quantifier": "all tables, all schedules of allocation failures", "why_tests_cant": "allocation failures and all tables", "anchors": ["source/display/help_display.c: display_help", "source/display/help/help_organizer.c"]}
{"id": "C55", "title": "Usage line follows the declarations", "statement": "The usage line names the program and the chain of selected subcommands, the option marker, every positional in order (marked as required, optional or variadic), and the command marker exactly when the table has subcommands.", "quantifier": "all tables, all subcommand chains", "why_tests_cant": "all tables", "anchors": ["source/display/usage_display.c: display_usage"]}
{"id": "C56", "title": "Command overviews list every runnable command", "statement": "The overviews of commands list every command with an action, with the path to type and its help text. (Proved for the first two levels of the general overview and for all levels below a selected command; refuted: the general overview leaves out commands nested deeper.)", "quantifier": "all tables", "why_tests_cant": "all nestings", "anchors": ["source/display/command_display.c: display_all_commands, display_available_subcommands"]}
{"id": "C57", "title": "Every error code has a description of its own", "statement": "argus_strerror describes every code the library reports, differently for different codes, in the words of the code's name. (Refuted: codes reported by parsing are described as unknown errors.)", "quantifier": "all error codes", "why_tests_cant": "exhaustive over all codes and all ways to fail", "anchors": ["source/core/error.c: argus_strerror", "includes/argus/errors.h"]}
{"id": "C58", "title": "Captured output is read back completely", "statement": "Everything printed to a captured stream since the last reading, and nothing else, is what stream_read returns, in order and terminated, when memory suffices and the text fits the pipe. (Refuted for text printed before the capture that stdio still held, and for text larger than the pipe, which blocks for ever.)", "quantifier": "all sequences of prints, reads and captures, all buffering behaviours", "why_tests_cant": "buffering and pipe capacity are nondeterministic", "anchors": ["source/utils/stream.c: stream_redirect, stream_read"]}
{"id": "C59", "title": "Checking a description ends, without undefined behaviour, with the right verdict", "statement": "argus_init (with validation) of any description written with the macros ends without undefined behaviour; it returns the context if the description is in order and refuses it otherwise. (Refuted when a validator refuses the default and a later one accepts it, or a validator of the program refuses it without printing: NULL is formatted with %s. Refuted for a subcommand that leads back to its own table: the recursion never ends.)", "quantifier": "all tables, defaults, validators and nestings", "why_tests_cant": "the descriptions are unbounded, and the faults need particular validators of defaults", "anchors": ["source/api/argus_init.c", "source/core/validation/validate_structure.c", "source/core/validation/validate_arguments.c: validate_default_value"]}
{"id": "C60", "title": "Every refusal is explained once, and nothing else is", "statement": "A parse that returns an error code prints exactly one error message, the one of the code returned; a parse that succeeds, or that ends the program for a help or version option, prints none. (Proved when handlers and validators are those of the library; refuted for the lack of memory, where the message is missing or names another reason, and for an exit option set by the environment, which fails without a message.)", "quantifier": "all tables, arguments, environments and allocation failures", "why_tests_cant": "every way to fail, in every combination with what went before", "anchors": ["source/api/argus_parse.c: argus_parse", "includes/argus/errors.h: ARGUS_PARSING_ERROR", "source/callbacks/handlers", "source/callbacks/validators"]}
{"id": "C61", "title": "Every word of an accepted command line is used", "statement": "When a command line is accepted, each of its words is used exactly once and in order: as the name of an option or a subcommand, or as a text given to an option or positional. (Proved for every word but one dash and two dashes; refuted for a single dash, which is lost wherever an option may stand, even if a positional argument is waiting.)", "quantifier": "all tables and argument vectors", "why_tests_cant": "all command lines; a lost word leaves no trace in the outcome", "anchors": ["source/core/parsing/parse_args.c", "source/core/parsing/option_handle_short.c", "source/core/parsing/option_handle_long.c", "source/core/parsing/option_handle_positional.c"]}
{"id": "C62", "title": "Patterns for numbers accept exactly the numbers they are named after", "statement": "ARGUS_RE_PORT, POS_INT, NEG_INT, HEX and FLOAT accept exactly the port numbers 1 to 65535, the positive and the negative integers without leading zeros, the 0x numerals and the decimals, followed by at most one newline.", "quantifier": "all strings", "why_tests_cant": "unbounded strings; the boundary of a numeric interval is encoded in digits", "anchors": ["includes/argus/regex.h: ARGUS_RE_PORT, ARGUS_RE_POS_INT, ARGUS_RE_NEG_INT, ARGUS_RE_HEX, ARGUS_RE_FLOAT"]}
{"id": "C63", "title": "Patterns for the network accept exactly the addresses they are named after", "statement": "ARGUS_RE_IPV4, IPV6, DOMAIN, URL and HTTP accept exactly addresses of the kinds they are named after. (Exact languages proved; refuted as addresses: IPV4 accepts anything after an address, IPV6 accepts bare colons before a zone and refuses six groups followed by an IPv4 address, URL and HTTP refuse one-letter hosts and accept a space.)", "quantifier": "all strings", "why_tests_cant": "unbounded strings, hundreds of alternatives", "anchors": ["includes/argus/regex.h: ARGUS_RE_IPV4, ARGUS_RE_IPV6, ARGUS_RE_DOMAIN, ARGUS_RE_URL, ARGUS_RE_HTTP"]}
{"id": "C64", "title": "Patterns for mail addresses, dates and times accept exactly those", "statement": "ARGUS_RE_EMAIL, EMAIL_STRICT, ISO_DATE and ISOTIME accept exactly the mail addresses, dates and times of their form. (Exact languages proved; refuted as dates: days that do not exist are accepted.)", "quantifier": "all strings", "why_tests_cant": "unbounded strings, all dates", "anchors": ["includes/argus/regex.h: ARGUS_RE_EMAIL, ARGUS_RE_EMAIL_STRICT, ARGUS_RE_ISO_DATE, ARGUS_RE_ISOTIME"]}
{"id": "C65", "title": "Patterns for names, passwords, identifiers, files and versions accept exactly those", "statement": "ARGUS_RE_USER, PASSWD, UUID, UNIX_PATH, FILENAME and SEMVER accept exactly the texts of the documented form. (Exact languages proved; refuted as documented: passwords with signs and paths with spaces are refused.)", "quantifier": "all strings", "why_tests_cant": "unbounded strings; look-ahead interacts with the rest of the pattern", "anchors": ["includes/argus/regex.h: ARGUS_RE_USER, ARGUS_RE_PASSWD, ARGUS_RE_UUID, ARGUS_RE_UNIX_PATH, ARGUS_RE_FILENAME, ARGUS_RE_SEMVER"]}
{"id": "C66", "title": "A predefined pattern on an option guarantees the form of its value", "statement": "If PCRE2 behaves as documented, a parse that succeeds gave an option with a predefined pattern only texts of the form the pattern stands for, and the validator refuses no text of that form. (Refuted for programs compiled without ARGUS_REGEX against a library with it: every text is accepted.)", "quantifier": "all tables, arguments, environments and strings", "why_tests_cant": "unbounded strings and tables; the fault needs a particular combination of build flags", "anchors": ["includes/argus/regex.h", "source/callbacks/validators/regex_validator.c: regex_validator", "meson.build: pkg"]}
{"id": "C67", "title": "The error message names what was wrong", "statement": "When a word of the command line is refused, standard error holds exactly one line with the program's name and the reason (unknown option, missing value, unknown positional, ambiguous subcommand, quoting the word), followed by a pointer to the help of the subcommand selected so far; when a rule is broken, exactly one line that names the first entry out of order and the reason, and nothing else; otherwise nothing. Printing is always defined. (Refuted for exclusive groups without a name and when memory for the key of a map runs out, where the null pointer is printed with %s.)", "quantifier": "all tables, arguments and environments", "why_tests_cant": "all command lines; the message depends on the first problem among all entries", "anchors": ["includes/argus/errors.h: argus_parsing_error", "source/api/argus_parse.c: argus_parse", "source/core/parsing", "source/callbacks/validators"]}
{"id": "C68", "title": "A refused value is quoted with the reason", "statement": "When the value of an option is refused - by a pattern, as a boolean, as a number of a list, as an element of an array of integers or as a pair of a map - the parse returns the code of the reason and standard error holds the program's name and exactly one text that quotes the first offending part (the whole value, the element, or key and value), followed by the pointer to the help unless the value came from the environment. The text is determined by option and value, and there are no other refusals.", "quantifier": "all accepted tables, arguments and environments; all strings", "why_tests_cant": "unbounded strings and lists; the first offending element may be anywhere; earlier values of the line have been stored", "anchors": ["source/callbacks/handlers", "source/callbacks/validators/regex_validator.c: regex_validator", "source/core/parsing/execute_callbacks.c: execute_callbacks", "source/api/argus_parse.c: argus_parse"]}
{"id": "C69", "title": "A refused description is reported with its faults", "statement": "When the check of the description ends, what it wrote to standard error is a list of complaints, each with source file and line, kind and name of the entry and a text; for every fault of every entry of every table reachable from the root (place in the table, names, form of the entry, refused default, unknown or contradictory dependencies, depth) there is the complaint that describes it, and there are no others; the program is ended exactly if there is a fault, and an accepted description is silent. If an entry with a fault carries no file name the behaviour is undefined. (Refuted: that a complaint is always about an entry that takes part in the fault.)", "quantifier": "all option tables with any nesting, any source positions, any validators whose choices can be listed", "why_tests_cant": "all descriptions with any combination of faults; which complaints appear depends on the order of entries and on nested tables", "anchors": ["includes/argus/errors.h: argus_struct_error", "source/core/validation/validate_structure.c", "source/core/validation/validate_containers.c", "source/core/validation/validate_arguments.c", "source/api/argus_init.c: _argus_init_validate"]}
{"id": "C70", "title": "Single values are compared, chosen and printed by their type", "statement": "cmp_value is negative, zero or positive exactly as the first value is below, equal to or above the second (booleans, integers whose distance fits an int, texts by bytes, numbers other than NaN), and is undefined exactly for integers whose distance does not fit an int; choices_to_value gives the chosen element and the empty value beyond the end; print_value writes the text of the value, and print_value_array the texts in order, separated by commas, between brackets. (Refuted: a total order with null strings and NaN; printing a null string.)", "quantifier": "all values of every type, all arrays of any length", "why_tests_cant": "2^64 pairs of integers, unbounded texts and arrays", "anchors": ["source/utils/value_utils.c: choices_to_value, cmp_value, print_value, print_value_array"]}
{"id": "C71", "title": "The check of defaults hands standard error back", "statement": "When the default value of an entry is judged, standard error is captured around every validator. If no system call fails and no message is longer than a pipe holds, the check ends, every descriptor is connected as before, nothing stays captured, and what was written to the real standard error is exactly one complaint per reason why the default is bad, in full, and nothing for an accepted default. (Refuted without these conditions: a refused default of 64 KiB blocks the program for ever; without a free descriptor or without memory the null pointer is printed with %s.)", "quantifier": "all options, validators, defaults, source positions; all states of the descriptor table that a program can be in", "why_tests_cant": "the text of the message is unbounded and the failures are of system calls; tests see one descriptor table", "anchors": ["source/core/validation/validate_arguments.c: validate_default_value", "source/utils/stream.c: stream_redirect, stream_read, stream_restore"]}
{"id": "C72", "title": "Acceptance is decided item by item", "statement": "Whether an item of the command line (a value for an option, a positional, a subcommand) is carried out depends on that item and its option alone, not on what stands before or after it. argus_parse returns 0 exactly if every item is taken, every value the environment then supplies is taken, and at the end all entries in play are in order; two lines that read as the same items in another order are both carried out or neither. Otherwise the first item that is not taken decides, with the one code that belongs to it, or the program is left.", "quantifier": "all descriptions accepted by argus_init, all command lines, environments and libc results", "why_tests_cant": "the claim is about all earlier and later items at once; tests try few orders", "anchors": ["source/api/argus_parse.c: argus_parse", "source/core/parsing/parse_args.c: parse_args", "source/core/parsing/execute_callbacks.c: execute_callbacks", "source/core/parsing/load_env_vars.c: load_env_vars"]}
{"id": "C73", "title": "The order of different options does not matter", "statement": "If two command lines ask for the same things and differ only in the order of different options, at least one of each exchanged pair taking a single value, then argus_parse has exactly the same result on both: the same status and the same context. Whatever else is on the line, what is read from a list or map is a function of the texts given to that option alone, in their order (lists of doubles that are sorted and maps sorted by value excepted: equal numbers are arranged by qsort).", "quantifier": "all tables, all pairs of command lines, environments and libc results", "why_tests_cant": "pairs of command lines; all options between the two", "anchors": ["source/api/argus_parse.c: argus_parse", "source/core/parsing/parse_args.c: parse_args", "source/core/parsing/execute_callbacks.c: execute_callbacks"]}
{"id": "C74", "title": "A variable acts as the option at the end of the command line", "statement": "If one command line asks for what another one asks for and then for the values that set variables supply to options in play, then parsing the shorter line with the variables and the longer one without any succeeds or not alike and with the same context; in particular NAME=v acts as --name=v at the end. Refused values give the same code (but an option that ends the program makes argus_parse return 1 instead of exiting when it is set by a variable).", "quantifier": "all tables, command lines, environments, libc results and failing allocations", "why_tests_cant": "pairs of runs in different environments; tests look at single variables", "anchors": ["source/core/parsing/load_env_vars.c: load_env, load_env_vars", "source/api/argus_parse.c: argus_parse"]}
{"id": "C75", "title": "Every request can be written as a command line", "statement": "For tables that passed the structure check: any list of options (flags without a text, the others with any text), followed by texts for the positionals or by a subcommand and a request there, is what some command line asks for, and parsing that line does it - provided that each option has a typeable name (a long one of at most 63 characters without '=', or a short one that is not a digit) and no earlier sibling's name begins with that of the subcommand. Without such a name no command line gives the option or selects the subcommand, though the check accepts the table.", "quantifier": "all accepted tables, all requests, all texts; for the converse all command lines", "why_tests_cant": "an existence claim for every request, and an impossibility over all command lines", "anchors": ["source/core/parsing/option_handle_long.c: handle_long_option", "source/core/parsing/option_handle_short.c: handle_short_option", "source/core/parsing/option_handle_subcommand.c: handle_subcommand", "source/core/validation/validate_structure.c: validate_naming"]}
{"id": "C76", "title": "Lists and maps are read back as they were written", "statement": "Texts without commas (and not empty), decimal integers and key=value pairs, joined by commas and given to an array or map option, are taken and read back as exactly that list or map. No other list of texts can be given: an option text yields ws exactly if ws is one comma-free text or consists of non-empty comma-free texts; by repeating the option exactly the lists of comma-free texts can be given; a pair exactly if its key has neither ',' nor '=' and its value no ','.", "quantifier": "all non-empty lists of texts, 32-bit integers and pairs with different keys; all option texts for the converse", "why_tests_cant": "a round trip over all values and an impossibility over all texts", "anchors": ["source/callbacks/handlers/array_string_handler.c: array_string_handler", "source/callbacks/handlers/array_int_handler.c: array_int_handler", "source/callbacks/handlers/map_string_handler.c: map_string_handler", "source/api/argus_value_access.c: argus_array_get, argus_map_get"]}
{"id": "C77", "title": "Adding an option keeps old command lines working", "statement": "If an option or a group, without default value, without a value in the environment and not required by name by an entry of its table, is added at the end of a table, then every command line that asked for nothing unknown gives the same outcome as before: same status, same values, messages and memory, and the new entry is untouched. In particular every accepted line is still accepted. (Refuted for subcommands: an abbreviation becomes ambiguous, and a word that was a positional argument becomes a command; refuted for numeric positionals beside options named by a digit.)", "quantifier": "all contexts, tables, entries, argument vectors and environments", "why_tests_cant": "a statement about pairs of programs, the old one and every extension of it", "anchors": ["source/core/parsing/parse_args.c: parse_args, find_subcommand", "source/utils/option_lookup.c", "source/core/parsing/load_env_vars.c", "source/core/parsing/post_parse_validation.c"]}
{"id": "C78", "title": "What the help shows can be typed", "statement": "The help screen of a table shows every name of every option that is not hidden and the name of every subcommand; typing a shown name gives that option or selects that subcommand; typing the text shown as default gives the value the program would have got anyway; every text offered by a choice or range note is let through by the validator. (Refuted for names with '=' or longer than 63 characters, for subcommands hidden behind a longer name, and for default values and choices beyond 32 bits.)", "quantifier": "all accepted descriptions, tables, configurations of the screen and command lines", "why_tests_cant": "ties two parts of the code that no test compares: the screen and the parser", "anchors": ["source/display/help/help_formatter.c", "source/display/help/help_renderer.c", "source/core/parsing/option_handle_long.c", "source/core/parsing/option_handle_short.c", "source/callbacks/validators/choices_validator.c", "source/callbacks/validators/range_validator.c"]}
{"id": "C79", "title": "The pattern validator uses PCRE2 properly", "statement": "For every pattern, text and hint and whatever allocations fail inside PCRE2, the pattern validator never hands PCRE2 an object that does not exist or was released, and releases every object it obtained; a text is let through only if the pattern compiles and the match succeeds, never for lack of memory; every refusal is told with exactly one message of the code returned.", "quantifier": "all patterns, texts, hints, engines and allocation failures", "why_tests_cant": "failures inside PCRE2 cannot be provoked from a test, and a leak is not observable", "anchors": ["source/callbacks/validators/regex_validator.c: regex_validator"]}
{"id": "C80", "title": "What a parse prints on standard output", "statement": "For every accepted set of options, every path of subcommand names (or words carried out without error, for handlers of the library) and every rest of the line, asking for the help of a command prints exactly the usage and the help screen of that command on standard output, nothing on standard error, and ends the program with success; asking for the version likewise prints the version; a line refused at a token prints exactly the usage of the command entered last; and a parse that succeeds prints nothing, provided that options with the help or version handler carry the flag that leaves the program.", "quantifier": "all accepted tables, paths of subcommands, lines, program configurations within the limits of the display buffers", "why_tests_cant": "the number of paths and lines is unbounded; tests compare a few screens", "anchors": ["source/callbacks/handlers/help_handler.c: help_handler", "source/callbacks/handlers/version_handler.c: version_handler", "source/api/argus_parse.c: argus_parse", "source/display/usage_display.c: display_usage"]}
{"id": "C81", "title": "A program written like the examples", "statement": "For every accepted set of options and every command line, a program that parses, reads values, calls argus_exec and frees as the examples do ends without undefined behaviour and with the status of the parse; the action of the last subcommand of an accepted line runs exactly once and no other action runs; on any other line no action runs and a failure is told by one message with the code that is the exit status; and nothing is left allocated.", "quantifier": "all accepted tables, command lines, environments and sequences of reads by the program", "why_tests_cant": "the order and number of calls, statuses and frees over all lines is unbounded; the examples are only compiled and run on a few lines", "anchors": ["examples/subcommands.c: main", "examples/nested_commands.c: main", "source/api/argus_exec.c: argus_exec", "source/api/argus_parse.c: argus_parse", "source/api/argus_free.c: argus_free"]}
{"id": "C82", "title": "The environment is read only through declared variables", "statement": "Two environments that agree on the variables of those options and positionals, in the tables that the command line uses, that let the environment override or are neither given on the line nor set from the start, lead to exactly the same parse: ending, status, values, messages, memory. In particular a program with a prefix whose options in use keep it depends on no variable outside the prefix.", "quantifier": "all contexts that have not been parsed with, all command lines, all pairs of environments", "why_tests_cant": "independence is a statement about pairs of runs in all environments; a test fixes two environments and cannot show that no other variable matters", "anchors": ["source/core/parsing/load_env_vars.c: load_env_vars", "source/core/parsing/load_env_vars.c: get_env_var_name", "source/api/argus_parse.c: argus_parse"]}
{"id": "C83", "title": "Screens that the program asks for show the selected command", "statement": "After a successful parse argus_print_help shows the help screen of the subcommand named last on the command line (of the program if none was named), argus_print_usage shows its usage line, and argus_print_version the name, version and description, whatever values and marks the parse left behind; the help releases all memory it allocates and the other two need none.", "quantifier": "all contexts, command lines that parse, and tables whose texts fit the buffers", "why_tests_cant": "the screens depend on the whole table and on the stack of subcommands after any command line; tests only look for a few words on a few screens", "anchors": ["source/api/argus_display.c: argus_print_help, argus_print_usage, argus_print_version", "source/display/help_display.c: display_help", "source/display/usage_display.c: display_usage", "source/display/version_display.c: display_version"]}
{"id": "C84", "title": "A program can rely on the validators it declared", "statement": "After a successful parse, whatever option the program looks up by whatever path: if argus_is_set says it is set, then argus_get (or argus_count) delivers a value that meets each validator declared for it - its integer lies in the range of V_RANGE, its text has a length within V_LENGTH, its number of elements is within V_COUNT, and it is one of the values of V_CHOICE_STR, V_CHOICE_INT or V_CHOICE_FLOAT - no matter whether it came from the command line, the environment or a default.", "quantifier": "all contexts, command lines, environments, paths and validator bounds", "why_tests_cant": "the claim joins parsing, environment, defaults, checks and lookup by path for every command line; tests feed a few values to single options", "anchors": ["source/api/argus_parse.c: argus_parse", "source/core/parsing/post_parse_validation.c: post_parse_validation", "source/api/argus_value_access.c: argus_get, argus_count, argus_is_set", "includes/argus/options.h: V_RANGE, V_LENGTH, V_COUNT, V_CHOICE_STR, V_CHOICE_INT, V_CHOICE_FLOAT"]}
{"id": "C85", "title": "A command listed in the overview runs when its words are typed", "statement": "The overview shown when no command is given lists every runnable command of one or two words by exactly the words to type; typing those words (or, at any depth, the words of a path), followed by any options and positionals of that command, makes argus_exec run that command's action. This holds for names that do not begin with '-' and that no earlier sibling command's name begins with; a command hidden behind a longer, earlier sibling is listed but refused as ambiguous. Likewise the screen for a command that cannot be run lists the commands below it, at every depth, by the words to type after those already typed; its lines begin with the last command only, so below the first level they cannot be typed as shown.", "quantifier": "all command trees, paths, further arguments, program names and actions", "why_tests_cant": "the claim ties what one function prints to what two others do with it, for every tree; tests check a few fixed trees and never feed the printed lines back", "anchors": ["source/display/command_display.c: display_all_commands", "source/core/parsing/parse_args.c: find_subcommand", "source/api/argus_exec.c: argus_exec"]}
{"id": "C86", "title": "Two options share a variable exactly if their names are alike", "statement": "Two options that derive the name of their environment variable listen to the same variable exactly if their names differ at most in the case of letters and in '-' for '_'; two options that declare the name of their variable, both with or both without the program's prefix in front, share it exactly if the names are equal (names of up to 127 characters with the prefix). The check of the description does not refuse sharing: `--dry-run` and `--dry_run` are set by one variable, and so are options that declare `X` and `APP_X` under the prefix APP.", "quantifier": "all prefixes, declarations and names", "why_tests_cant": "an equivalence over all pairs of names; tests look up a few variables", "anchors": ["source/core/parsing/load_env_vars.c: get_env_var_name, load_env", "source/core/validation/validate_structure.c"]}
{"id": "C87", "title": "Words written after the usage line are read as it shows", "statement": "After the words that lead to a command (or to none), words that are neither options nor names of subcommands are handed to the arguments of that command's usage line one by one in the order shown, a variadic last argument taking the rest; and argus_print_usage then prints exactly the words typed up to the command followed by those arguments. This needs that only the last argument is variadic: the check of the description lets others be, and the usage line then shows an argument that no word reaches.", "quantifier": "all command trees, paths, tables and words", "why_tests_cant": "joins what one function prints to how another reads every possible line; tests compare single usage texts and single parses", "anchors": ["source/display/usage_display.c: display_usage", "source/core/parsing/parse_args.c: parse_args", "source/utils/option_lookup.c: find_positional"]}
{"id": "C88", "title": "Dropping rules and rewriting texts refuses no line", "statement": "If validators, requirements, conflicts, required marks or exclusive groups are dropped from a description, and help texts, hints and the flags hidden, advanced, deprecated and experimental are changed at will, every line that was accepted is still accepted, with the same values, memory, messages and selected commands; whatever the program then reads, runs or releases is the same. Texts alone change nothing about which lines are accepted. The looser description itself need not pass the structure check; it does if help texts stay, positionals stay required, no flag is new and no list is given where there was none.", "quantifier": "all pairs of descriptions so related, all lines, environments and C libraries", "why_tests_cant": "relates two runs over different descriptions; a test fixes one description", "anchors": ["source/core/parsing/parse_args.c: parse_args", "source/core/parsing/execute_callbacks.c: execute_callbacks", "source/core/parsing/post_parse_validation.c: validate_options_set", "source/callbacks/handlers"]}
{"id": "C89", "title": "A refused word is refused whatever follows", "statement": "A line that is refused for one of its words, or that leaves the program, ends in exactly the same way (status, messages, values, memory) whatever words are written behind it and whatever the environment holds. The one exception is a value missing at the end: then any further word, even one that looks like an option, becomes that value.", "quantifier": "all descriptions, all lines, all continuations, all environments and C libraries", "why_tests_cant": "quantifies over every continuation of a line and every environment", "anchors": ["source/core/parsing/parse_args.c: parse_args", "source/core/parsing/option_handle_long.c: handle_long_option", "source/core/parsing/option_handle_short.c: handle_short_option", "source/api/argus_parse.c: argus_parse"]}
{"id": "C90", "title": "A command reads its words as a program of its own", "statement": "The words behind the name of a command are parsed exactly as by a program whose description is that of the command: the line is accepted, refused or left in the same way, with the same values, messages and memory. The only difference is that the command is marked as set in the program's table and lies at the bottom of the stack of commands. For the whole of argus_parse the program's own table has to ask for nothing (no value, no variable in the environment, no required positional, no rules on the command); for reading the words it may ask for anything, and options and positionals of its own may come before the command. At most 7 further commands may follow. After an accepted line a name without dots that the command's own program knows is answered alike (value, mark, count, elements, keys of maps, start of iterators); any other is looked up in the program's own table; the path command.path finds the value, mark and count that path (or .name for a single name) finds in the command's own program; and argus_exec runs the same action if a further command was given, and that of the command itself otherwise.", "quantifier": "all descriptions, all commands of the program selected by name or unambiguous prefix, all words behind them, all environments and C libraries", "why_tests_cant": "quantifies over every description and every line, and compares two programs", "anchors": ["source/core/parsing/parse_args.c: parse_args", "source/core/parsing/option_handle_subcommand.c: handle_subcommand", "source/core/parsing/post_parse_validation.c: post_parse_validation", "source/api/argus_parse.c: argus_parse", "source/utils/option_lookup.c: find_option_by_active_path", "source/api/argus_exec.c: argus_exec"]}
