(** * Specification: the names of the error codes *)
From Verif Require Export Api.

(** The enumeration argus_error_type_e (includes/argus/errors.h 19-61): the name at place n has the value n. *)
Definition enumerators : list cstr :=
  [$"ARGUS_SUCCESS"; $"ARGUS_SHOULD_EXIT"; $"ARGUS_STRUCT_ERROR";
   $"ARGUS_ERROR_DUPLICATE_OPTION"; $"ARGUS_ERROR_INVALID_HANDLER"; $"ARGUS_ERROR_INVALID_DEFAULT";
   $"ARGUS_ERROR_INVALID_GROUP"; $"ARGUS_ERROR_INVALID_DEPENDENCY"; $"ARGUS_ERROR_INVALID_FLAG";
   $"ARGUS_ERROR_INVALID_POSITION"; $"ARGUS_ERROR_MALFORMED_OPTION"; $"ARGUS_ERROR_MISSING_HELP";
   $"ARGUS_ERROR_INVALID_ARGUMENT"; $"ARGUS_ERROR_MISSING_VALUE"; $"ARGUS_ERROR_MISSING_REQUIRED";
   $"ARGUS_ERROR_CONFLICTING_OPTIONS"; $"ARGUS_ERROR_INVALID_FORMAT"; $"ARGUS_ERROR_EXCLUSIVE_GROUP";
   $"ARGUS_ERROR_INVALID_CHOICE"; $"ARGUS_ERROR_INVALID_RANGE"; $"ARGUS_ERROR_AMBIGUOUS_SUBCOMMAND";
   $"ARGUS_ERROR_NO_COMMAND"; $"ARGUS_ERROR_NO_VALUE"; $"ARGUS_ERROR_INVALID_TYPE";
   $"ARGUS_ERROR_INVALID_INDEX"; $"ARGUS_ERROR_INVALID_KEY"; $"ARGUS_ERROR_MEMORY";
   $"ARGUS_ERROR_INTERNAL"; $"ARGUS_ERROR_UNSUPPORTED"; $"ARGUS_ERROR_INVALID_VALUE";
   $"ARGUS_ERROR_STACK_OVERFLOW"].
(** A text written like a name: capitals, and underscores between words *)
Definition shouted (s : cstr) : cstr :=
  map (fun c => if Ascii.eqb c " " then "_"%char
                else if (("a" <=? c) && (c <=? "z"))%char then ascii_of_nat (nat_of_ascii c - 32) else c) s.
(** The words of the name stand at the beginning of the text. *)
Definition speaks_of (name text : cstr) : Prop := exists words rest,
  shouted text = words ++ rest /\ words <> [] /\ (name = $"ARGUS_ERROR_" ++ words \/ name = $"ARGUS_" ++ words).
