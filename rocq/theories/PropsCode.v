(** * Properties of the error code: every parse, however it ends *)
From Verif Require Import Macros SpecTold ToldProofs CodeProofs ExLib ExGrammar PropsTold.

(** ** C37, with the handlers and validators of the library *)

(** Whatever the line, the environment and the state of the context: the code that is returned is
    the one left in the context.  The exceptions are an exit option set by the environment, which
    returns 1 and leaves 0, and the lack of memory (26). *)
Theorem C37_library `{Libc} a argv c a' :
  library_only (decls a) -> argus_parse a argv = Ok (Returned c, a') -> c <> 26 ->
  a_err a' = c \/ c = 1 /\ a_err a' = 0.
Proof. exact (parse_code a argv c a'). Qed.
Print Assumptions C37_library.

(** Refused on the line, by the environment, after parsing; accepted. *)
Example C37_library_example : library_only (decls ex_told_ctx) /\
  Forall (fun '(env, argv, c) => match argus_parse (H := libc_env env) ex_told_ctx argv with
    | Ok (Returned c', a') => c' = c /\ a_err a' = c | _ => False end)
  [([], [$"-n"; $"3"; $"run"; $"-b"; $"x=yes,y=maybe"], 29);
   ([], [$"-a"; $"1,2"], 14);
   ([($"NUM", $"seven")], [$"-m"; $"fast"], 19);
   ([($"NUM", $"11")], [$"-m"; $"fast"; $"run"; $"4"], 19);
   ([($"NUM", $"4")], [$"-a"; $"1,2"], 0)].
Proof.
  split; [apply library_dec; vm_compute; reflexivity|].
  repeat (apply Forall_cons; split; [vm_compute; split; reflexivity|]). by apply Forall_nil.
Qed.

(** No memory for the text of a variable: status 26, the context says that nothing went wrong. *)
Definition ex_env_tags : list (list opt) := [[HELP_OPTION; OPTION_ARRAY_STRING "t" (Some ($"tags")) [hlp; ENV_VAR ($"TAGS")]]].
Theorem C37_memory_by_environment_refuted :
  library_only (decls (starved ex_env_tags [false; true])) /\
  exists a', argus_parse (H := libc_env [($"TAGS", $"x")]) (starved ex_env_tags [false; true]) [] = Ok (Returned 26, a') /\
    a_err a' = 0.
Proof.
  split; [apply library_dec; vm_compute; reflexivity|]. eexists. split; [vm_compute; reflexivity|]. reflexivity.
Qed.
Print Assumptions C37_memory_by_environment_refuted.
