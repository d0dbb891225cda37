(** * Properties of a program written like the examples *)
From Verif Require Import Macros Api Validate SpecGrammar SpecAfter SpecStructure SpecMemory SpecContents SpecSafe SpecCollections
  SpecMacros MacroProofs SafeFacts SafeWhole SpecTold SpecMessages SpecRefused SpecLeak LeakProofs MessageProofs ExLib ExAfter ExStructure ExMemory PropsCollections
  PropsTold PropsMessages PropsRefused Program SpecProgram ProgramProofs.
From Verif Require Import SpecSafe SpecAfter.

(** ** C81 *)

(** The program ends without undefined behaviour, with the status of the parse. *)
Theorem C81_defined `{Libc} act look look' a argv :
  accepted a -> no_strays (decls a) (a_root a) -> ready a ->
  (forall t i o, entry a t i o -> single_typed (decl_of o)) -> qsort_sorts -> harmless_input a argv ->
  only_reads look -> only_reads look' ->
  exists o a1 c a', argus_parse a argv = Ok (o, a1) /\ example_main act look look' a argv = Ok (c, a') /\
    o = match o with Returned _ => Returned c | Exited _ => Exited c end.
Proof. exact (main_total act look look' a argv). Qed.
Print Assumptions C81_defined.
(** An accepted line: status 0, no message, and the action of the last subcommand of the line has run
    once; no other action has. *)
Theorem C81_action `{Libc} act look look' a argv its a1 :
  accepted a -> no_strays (decls a) (a_root a) -> ready a ->
  (forall t i o, entry a t i o -> single_typed (decl_of o)) -> qsort_sorts -> harmless_input a argv -> library_only (decls a) ->
  only_reads look -> only_reads look' -> reads (decls a) (a_root a) 0 false argv its ->
  argus_parse a argv = Ok (Returned 0, a1) ->
  exists a', example_main act look look' a argv = Ok (0, a') /\ actions (a_log a') = asked_action (decls a) its /\
    messages (a_log a') = [].
Proof. exact (main_action act look look' a argv its a1). Qed.
Print Assumptions C81_action.
(** Any other line: no action has run, and a failure was told with the code that is the status of the
    process. *)
Theorem C81_no_action `{Libc} act look look' a argv o a1 :
  accepted a -> no_strays (decls a) (a_root a) -> library_only (decls a) ->
  argus_parse a argv = Ok (o, a1) -> o <> Returned 0 ->
  exists c a', example_main act look look' a argv = Ok (c, a') /\ o = match o with Returned _ => Returned c | Exited _ => Exited c end /\
    actions (a_log a') = [] /\ explained c (a_log a').
Proof. exact (main_none act look look' a argv o a1). Qed.
Print Assumptions C81_no_action.
(** Nothing is left allocated.  What is missing is what is missing of C35: keys given twice and the first
    list of an option that is refused midway. *)
Theorem C81_released_partial `{Libc} act look look' a argv its x :
  accepted a -> no_strays (decls a) (a_root a) -> ready a -> library_only (decls a) -> qsort_sorts -> harmless_input a argv ->
  only_reads look -> only_reads look' -> ending a argv its x -> keys_once a its -> not_begun a its x ->
  exists c a', example_main act look look' a argv = Ok (c, a') /\ no_live_block a'.
Proof. exact (main_released act look look' a argv its x). Qed.
Print Assumptions C81_released_partial.

(** ** Examples *)
Definition look_all (a : argus) : argus := match argus_get a (Some ($"all")) with Ok (_, a1) => a1 | UB _ => a end.
Lemma look_reads (L : Libc) : only_reads (H := L) look_all.
Proof.
  intros a. unfold look_all. destruct (argus_get a _) as [[x a1]|u] eqn:E; [|constructor].
  eapply ac_get; [exact E|constructor].
Qed.
Lemma refused_library : library_only (decls refused_ctx).
Proof. exact (proj2 (proj2 refused_starts)). Qed.
Lemma refused_single : forall t i o, entry refused_ctx t i o -> single_typed (decl_of o).
Proof. exact (fun t i o => built_single ex_refused 0 None t i o refused_built). Qed.
Definition good_line : list cstr := [$"-a"; $"1,2"; $"run"; $"-b"; $"x=yes"; $"3"; $"4"].
Lemma good_harmless : harmless_input (H := libc0) refused_ctx good_line.
Proof. apply (check_harmless libc0 refused_ctx good_line refused_fresh); vm_compute; reflexivity. Qed.
(** "-a 1,2 run -b x=yes 3 4": the action of "run" *)
Example C81_defined_example : exists o a1 c a', argus_parse (H := libc0) refused_ctx good_line = Ok (o, a1) /\
  example_main (H := libc0) (fun _ => 3) look_all look_all refused_ctx good_line = Ok (c, a') /\
    o = match o with Returned _ => Returned c | Exited _ => Exited c end.
Proof.
  exact (C81_defined (H := libc0) (fun _ => 3) look_all look_all refused_ctx good_line (refused_accepted []) refused_strays refused_ready
    refused_single (env_sorts []) good_harmless (look_reads _) (look_reads _)).
Qed.
Example C81_action_example : exists a',
  example_main (H := libc0) (fun _ => 3) look_all look_all refused_ctx good_line = Ok (0, a') /\
  actions (a_log a') = [1%nat] /\ messages (a_log a') = [].
Proof.
  assert (E : argus_parse (H := libc0) refused_ctx good_line = Ok (Returned 0, ran libc0 refused_ctx good_line)) by (vm_compute; reflexivity).
  exact (C81_action (H := libc0) (fun _ => 3) look_all look_all refused_ctx good_line (plan_of refused_ctx good_line) _ (refused_accepted []) refused_strays refused_ready
    refused_single (env_sorts []) good_harmless refused_library (look_reads _) (look_reads _) (reads_plan _ _ _ refused_fresh eq_refl) E).
Qed.
(** "-a 1,2 run 3 x": "x" is no number; the action does not run. *)
Example C81_no_action_example : exists c a',
  example_main (H := libc0) (fun _ => 3) look_all look_all refused_ctx [$"-a"; $"1,2"; $"run"; $"3"; $"x"] = Ok (c, a') /\
  Returned E_INVALID_VALUE = Returned c /\ actions (a_log a') = [] /\ explained c (a_log a').
Proof.
  set (argv := [$"-a"; $"1,2"; $"run"; $"3"; $"x"]).
  assert (E : argus_parse (H := libc0) refused_ctx argv = Ok (Returned E_INVALID_VALUE, ran libc0 refused_ctx argv)) by (vm_compute; reflexivity).
  refine (C81_no_action (H := libc0) (fun _ => 3) look_all look_all refused_ctx argv _ _ (refused_accepted []) refused_strays refused_library E _).
  discriminate.
Qed.
Example C81_released_example : exists c a',
  example_main (H := libc0) (fun _ => 3) look_all look_all refused_ctx good_line = Ok (c, a') /\ no_live_block a'.
Proof.
  refine (C81_released_partial (H := libc0) (fun _ => 3) look_all look_all refused_ctx good_line (all_items libc0 refused_ctx good_line) None (refused_accepted []) refused_strays refused_ready
    refused_library (env_sorts []) good_harmless (look_reads _) (look_reads _) _ _ _).
  - apply (end_all (H := libc0) refused_ctx good_line _ (of_run libc0 refused_ctx (all_items libc0 refused_ctx good_line))); [|vm_compute; reflexivity].
    apply (all_assigned libc0 refused_ctx good_line refused_fresh). vm_compute. reflexivity.
  - apply (keys_onceb_ok libc0). vm_compute. reflexivity.
  - intros t i v T d [=].
Qed.
(** The status of the action is not that of the process: an action that fails with 3 is reported to
    the shell as a success. *)
Theorem C81_status_refuted : exists act a argv a', accepted (H := libc0) a /\
  argus_exec act (ran libc0 a argv) = Ok (3, add_log (ran libc0 a argv) [EAction 1]) /\
  argus_parse (H := libc0) a argv = Ok (Returned 0, ran libc0 a argv) /\
  example_main (H := libc0) act (fun x => x) (fun x => x) a argv = Ok (0, a').
Proof.
  exists (fun _ => 3), refused_ctx, good_line,
    (match example_main (H := libc0) (fun _ => 3) (fun x => x) (fun x => x) refused_ctx good_line with Ok (_, a') => a' | UB _ => refused_ctx end).
  split; [exact (refused_accepted [])|]. split; [vm_compute; reflexivity|]. split; vm_compute; reflexivity.
Qed.
Print Assumptions C81_status_refuted.
