(** * Properties of the messages of a parse *)
From Verif Require Import Macros SpecTold ToldProofs ExLib ExGrammar.

(** ** C60 *)

(** Whatever the arguments, the environment, the C library and the allocations that fail: a parse
    that succeeds or exits prints no error message, a parse that is refused prints exactly one,
    whose code is the one returned.  Missing: code of the program (handlers and validators, which
    print their own messages), and the lack of memory. *)
Theorem C60_told_partial `{Libc} a argv o a' :
  library_only (decls a) -> argus_parse a argv = Ok (o, a') ->
  exists l, a_log a' = a_log a ++ l /\
    match o with
    | Exited _ => messages l = []
    | Returned c => (c = 0 \/ c = 1 -> messages l = []) /\ (c <> 0 -> c <> 1 -> c <> 26 -> messages l = [c])
    end.
Proof. exact (parse_told a argv o a'). Qed.
Print Assumptions C60_told_partial.

Lemma library_dec (D : list (list decl)) :
  forallb (forallb (fun d => match d_handler d with Some (HCustom _) => false | _ => true end &&
    forallb (fun e => match v_fun e with VCustomPre _ | VCustomPost _ => false | _ => true end) (validators d))) D = true ->
  library_only D.
Proof.
  intros F t T d HT Hd. rewrite forallb_forall in F. apply elem_of_list_lookup_2, elem_of_list_In, F in HT.
  rewrite forallb_forall in HT. apply elem_of_list_In, HT, andb_true_iff in Hd as [F1 F2]. split.
  - intros f E. by rewrite E in F1.
  - intros e He. rewrite forallb_forall in F2. apply elem_of_list_In, F2 in He. by destruct (v_fun e).
Qed.
(** A range, a list of choices and an array; a value that is refused in the middle of the line,
    one refused by the environment, one refused after parsing, and an accepted line. *)
Definition ex_told : list (list opt) :=
  [[HELP_OPTION;
    OPTION_INT "n" (Some ($"num")) [hlp; VALIDATOR [V_RANGE 1 10]; ENV_VAR ($"NUM")];
    OPTION_STRING "m" (Some ($"mode")) [hlp; VALIDATOR [V_CHOICE_STR [$"fast"; $"slow"]]];
    OPTION_ARRAY_INT "a" (Some ($"all")) [hlp; REQUIRE [$"num"]];
    SUBCOMMAND (Some ($"run")) (Some 1%nat) [hlp; ACTION 1]];
   [HELP_OPTION; OPTION_FLAG "q" (Some ($"quiet")) [hlp]; OPTION_MAP_BOOL "b" (Some ($"bits")) [hlp];
    POSITIONAL_MANY_INT ($"who") [hlp]]].
Definition ex_told_ctx : argus := make_argus ex_told 0 None.
Lemma told_library : library_only (decls ex_told_ctx).
Proof. apply library_dec. vm_compute. reflexivity. Qed.
Definition told_of (env : list (cstr * cstr)) (argv : list cstr) : option (outcome * list Z) :=
  match argus_parse (H := libc_env env) ex_told_ctx argv with
  | Ok (o, a') => Some (o, messages (a_log a'))
  | UB _ => None
  end.
Example C60_refused : Forall (fun '(env, argv, c) => told_of env argv = Some (Returned c, [c]))
  [([], [$"-n"; $"3"; $"run"; $"-b"; $"x=yes,y=maybe"], 29);
   ([], [$"-a"; $"1,2"], 14);
   ([], [$"-n"; $"3"; $"run"; $"--loud"], 12);
   ([], [$"-m"; $"fast"; $"-n"; $"11"], 19);
   ([], [$"-a"; $"1,,x"; $"-m"; $"slow"], 16);
   ([($"NUM", $"11")], [$"-m"; $"fast"; $"run"; $"4"], 19)].
Proof. repeat (apply Forall_cons; split; [vm_compute; reflexivity|]). by apply Forall_nil. Qed.
Example C60_accepted : Forall (fun '(env, argv, o) => told_of env argv = Some (o, []))
  [([], [$"-n"; $"3"; $"-a"; $"1-3"; $"run"; $"-b"; $"x=yes"; $"5"], Returned 0);
   ([($"NUM", $"4")], [$"-a"; $"1,2"], Returned 0);
   ([], [$"-n"; $"3"; $"run"; $"--help"; $"--loud"], Exited 0)].
Proof. repeat (apply Forall_cons; split; [vm_compute; reflexivity|]). by apply Forall_nil. Qed.

(** What is missing in the general claim. *)

(** No memory for the text of an array of strings: status 26 and not a word. *)
Definition ex_tags : list (list opt) := [[HELP_OPTION; OPTION_ARRAY_STRING "t" (Some ($"tags")) [hlp]]].
Definition starved (tabs : list (list opt)) (fails : list bool) : argus :=
  set_heap (make_argus tabs 0 None) (Heap [] fails).
Theorem C60_no_memory_refuted :
  library_only (decls (starved ex_tags [false; true])) /\
  exists a', argus_parse (H := libc0) (starved ex_tags [false; true]) [$"-t"; $"x"] = Ok (Returned 26, a') /\
    messages (a_log a') = [].
Proof.
  split; [apply library_dec; vm_compute; reflexivity|]. eexists. split; [vm_compute; reflexivity|]. reflexivity.
Qed.
Print Assumptions C60_no_memory_refuted.
(** No memory for a list of numbers: status 26, the message says that the value is wrong (29). *)
Definition ex_nums : list (list opt) := [[HELP_OPTION; POSITIONAL_MANY_INT ($"nums") [hlp]]].
Theorem C60_wrong_reason_refuted :
  library_only (decls (starved ex_nums [true])) /\
  exists a', argus_parse (H := libc0) (starved ex_nums [true]) [$"7"] = Ok (Returned 26, a') /\
    messages (a_log a') = [29].
Proof.
  split; [apply library_dec; vm_compute; reflexivity|]. eexists. split; [vm_compute; reflexivity|]. reflexivity.
Qed.
Print Assumptions C60_wrong_reason_refuted.
(** An exit option set by the environment: the parse fails, with status 1, without a message. *)
Definition ex_exit : list (list opt) :=
  [[HELP_OPTION; OPTION_FLAG "x" (Some ($"stop")) [hlp; ENV_VAR ($"STOP"); FLAGS FLAG_EXIT]]].
Theorem C60_exit_by_environment_refuted :
  library_only (decls (make_argus ex_exit 0 None)) /\
  exists a', argus_parse (H := libc_env [($"STOP", $"1")]) (make_argus ex_exit 0 None) [] = Ok (Returned 1, a') /\
    messages (a_log a') = [].
Proof.
  split; [apply library_dec; vm_compute; reflexivity|]. eexists. split; [vm_compute; reflexivity|]. reflexivity.
Qed.
Print Assumptions C60_exit_by_environment_refuted.
