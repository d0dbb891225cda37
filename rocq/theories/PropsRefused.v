(** * Properties of the message about a refused value *)
From Coq Require Import Lia.
From Verif Require Import Macros Validate Messages SpecDisplay ValueProofs SpecMacros MacroProofs SpecGrammar SpecAfter AfterProofs SpecStructure StructProofs SpecValues
  SpecTold SpecMessages SpecMemory SpecContents SpecSafe SpecRefused RefusedProofs SafeFacts PropsTold PropsMessages GrammarProofs MoreFacts ExLib ExGrammar
  ExAfter ExStructure ExMemory.

(** ** C68 *)

(** A value that is refused on the command line: one line with the program's name and the text
    that belongs to this option and value, then the pointer to the help of the command selected so
    far; the parse returns the code that belongs to the text. *)
Theorem C68_refused `{Libc} (pcre : cstr -> cstr) a argv its t i v its2 T d a1 c tx cs p : starts a -> accepted a ->
  no_strays (decls a) (a_root a) -> ready a -> qsort_sorts -> harmless_input a argv ->
  reads (decls a) (a_root a) 0 false argv (its ++ Call t i v :: its2) -> perform a its = Ok (0, a1) ->
  decls a !! t = Some T -> T !! i = Some d -> value_said pcre d v c tx -> called (decls a) its cs ->
  exists a', argus_parse a argv = Ok (Returned c, a') /\
    stderr_of pcre p a' = Ok (told_line (p_name p) tx ++ pointer (p_name p) cs).
Proof. exact (refused_parse pcre a argv its t i v its2 T d a1 c tx cs p). Qed.
Print Assumptions C68_refused.
(** A value of the environment: the same line and no pointer. *)
Theorem C68_environment `{Libc} (pcre : cstr -> cstr) a argv its t i v e1 e2 T d a1 a2 c tx p : starts a -> accepted a ->
  no_strays (decls a) (a_root a) -> ready a -> qsort_sorts -> harmless_input a argv ->
  reads (decls a) (a_root a) 0 false argv its -> perform a its = Ok (0, a1) ->
  env_items a1 = e1 ++ Call t i v :: e2 -> perform a1 e1 = Ok (0, a2) ->
  decls a !! t = Some T -> T !! i = Some d -> value_said pcre d v c tx ->
  exists a', argus_parse a argv = Ok (Returned c, a') /\ stderr_of pcre p a' = Ok (told_line (p_name p) tx).
Proof. exact (refused_env pcre a argv its t i v e1 e2 T d a1 a2 c tx p). Qed.
Print Assumptions C68_environment.
(** No other refusals: a call that is reached takes its value or refuses it with one of the texts. *)
Theorem C68_decided `{Libc} (pcre : cstr -> cstr) a argv its t i v its2 T d a1 : starts a -> accepted a ->
  no_strays (decls a) (a_root a) -> ready a -> qsort_sorts -> harmless_input a argv ->
  reads (decls a) (a_root a) 0 false argv (its ++ Call t i v :: its2) -> perform a its = Ok (0, a1) ->
  decls a !! t = Some T -> T !! i = Some d ->
  exists st a2, perform a (its ++ [Call t i v]) = Ok (st, a2) /\
    (((st = 0 \/ st = 1) /\ value_taken d v) \/ exists tx, value_said pcre d v st tx).
Proof. exact (call_decided pcre a argv its t i v its2 T d a1). Qed.
Print Assumptions C68_decided.
(** The text and the code are determined by the option and the value, and a value is never both
    taken and refused. *)
Theorem C68_determined `{Libc} (pcre : cstr -> cstr) d v c tx : value_said pcre d v c tx ->
  ~ value_taken d v /\ forall c' tx', value_said pcre d v c' tx' -> c' = c /\ tx' = tx.
Proof. exact (fun Hs => conj (said_not_taken pcre d v c tx Hs) (fun c' tx' Hs' => said_fun pcre d v c' tx' c tx Hs' Hs)). Qed.
Print Assumptions C68_determined.

(** ** Examples *)
Definition ex_refused : list (list opt) :=
  [[HELP_OPTION;
    OPTION_STRING "m" (Some ($"mail")) [hlp; VALIDATOR [V_REGEX (Some ($"a@b")) (Some ($"user@host"))]; ENV_VAR ($"MAIL")];
    OPTION_ARRAY_INT "a" (Some ($"all")) [hlp; ENV_VAR ($"ALL")];
    SUBCOMMAND (Some ($"run")) (Some 1%nat) [hlp; ACTION 1]];
   [HELP_OPTION; OPTION_MAP_BOOL "b" (Some ($"bits")) [hlp]; POSITIONAL_MANY_INT ($"who") [hlp]]].
Definition refused_ctx : argus := make_argus ex_refused 0 None.
Definition R0 : list decl := map decl_of (default [] (ex_refused !! 0%nat)).
Definition R1 : list decl := map decl_of (default [] (ex_refused !! 1%nat)).
Lemma refused_starts : starts refused_ctx.
Proof. split; [done|]. split; [done|]. apply library_dec. vm_compute. reflexivity. Qed.
Lemma refused_accepted env : accepted (H := libc_env env) refused_ctx.
Proof. exists 3%nat, ex_refused, 0%nat, None. split; [vm_compute; reflexivity|done]. Qed.
Lemma refused_strays : no_strays (decls refused_ctx) 0.
Proof. apply straysb_ok. vm_compute. reflexivity. Qed.
Lemma refused_fresh : SpecAfter.fresh refused_ctx.
Proof. apply freshb_ok. vm_compute. reflexivity. Qed.
Lemma refused_built : built_tables ex_refused.
Proof. builds; intros e He; repeat (apply elem_of_cons in He as [->|He]); first [by apply elem_of_nil in He|done|by vm_compute]. Qed.
Lemma refused_ready : ready refused_ctx.
Proof. exact (built_ready _ _ _ refused_built). Qed.
Lemma reads_plan a argv its : SpecAfter.fresh a -> plan_of a argv = its -> reads (decls a) (a_root a) 0 false argv its.
Proof. intros Hf <-. by apply plan_reads_of. Qed.
Definition bits : decl := default (decl_of HELP_OPTION) (R1 !! 1%nat).
Definition mail : decl := default (decl_of HELP_OPTION) (R0 !! 1%nat).
Definition alls : decl := default (decl_of HELP_OPTION) (R0 !! 2%nat).
Lemma maybe_said : value_said (H := libc0) pcre0 bits (Some ($"x=yes,y=maybe")) 29
  ($"Invalid boolean value for key 'y': 'maybe' (expected true/false, yes/no, 1/0, on/off, y/n)").
Proof.
  apply (vs_pair (H := libc0) pcre0 bits HMapBool boolean ($"boolean") ($" (expected true/false, yes/no, 1/0, on/off, y/n)")
    ($"x=yes,y=maybe") [$"x=yes"] ($"y=maybe") [] ($"y") ($"maybe")).
  - intros e []%elem_of_nil.
  - reflexivity.
  - constructor.
  - exact (words_elements ($"x=yes,y=maybe")).
  - apply Forall_singleton. exists ($"x"), ($"yes"). split; [split; [reflexivity|by apply not_in_dec]|].
    exists true. apply bool_word_lower. apply elem_of_list_In. vm_compute. auto 10.
  - split; [reflexivity|by apply not_in_dec].
  - intros [b Hb%bool_word_lower]. destruct b; apply elem_of_list_In in Hb; vm_compute in Hb; intuition congruence.
Qed.
Lemma mail_said : value_said (H := libc0) pcre0 mail (Some ($"ab")) 29 ($"Value 'ab' does not match required pattern: user@host").
Proof.
  apply (vs_validator (H := libc0) pcre0 mail _ [] (V_REGEX (Some ($"a@b")) (Some ($"user@host"))) []); [reflexivity|reflexivity| |].
  - by apply (tr_hint (H := libc0) pcre0 ($"a@b") ($"user@host") ($"ab")).
  - intros e []%elem_of_nil.
Qed.
Lemma all_said env : value_said (H := libc_env env) pcre0 alls (Some ($"1-3,2x,z")) 16 ($"Invalid integer or range format: '2x'").
Proof.
  apply (vs_ints (H := libc_env env) pcre0 alls ($"1-3,2x,z") [$"1-3"] ($"2x") [$"z"]).
  - intros e []%elem_of_nil.
  - reflexivity.
  - exact (words_elements ($"1-3,2x,z")).
  - apply Forall_singleton. apply int_word_spec. by vm_compute.
  - intros E%int_word_spec. apply E. reflexivity.
Qed.
(** "run -b x=yes,y=maybe 5": in the middle of the line, of the second element, in a command. *)
Example C68_refused_example : exists a', argus_parse (H := libc0) refused_ctx [$"run"; $"-b"; $"x=yes,y=maybe"; $"5"] = Ok (Returned 29, a') /\
  stderr_of (H := libc0) pcre0 prog0 a' = Ok ($"app: Invalid boolean value for key 'y': 'maybe' (expected true/false, yes/no, 1/0, on/off, y/n)" ++
    line_end ++ line_end ++ line_end ++ $"Try 'app run --help' for more information." ++ line_end).
Proof.
  apply (C68_refused (H := libc0) pcre0 refused_ctx [$"run"; $"-b"; $"x=yes,y=maybe"; $"5"] [Enter 0 3] 1 1 (Some ($"x=yes,y=maybe"))
    [Call 1 2 (Some ($"5"))] R1 bits (of_run libc0 refused_ctx [Enter 0 3]) 29
    ($"Invalid boolean value for key 'y': 'maybe' (expected true/false, yes/no, 1/0, on/off, y/n)") [$"run"] prog0 refused_starts (refused_accepted []) refused_strays
    refused_ready (env_sorts [])).
  - apply (check_harmless_failed libc0 refused_ctx _ 29 refused_fresh); [discriminate|vm_compute; reflexivity|vm_compute; reflexivity].
  - apply reads_plan; [exact refused_fresh|vm_compute; reflexivity].
  - vm_compute. reflexivity.
  - reflexivity.
  - reflexivity.
  - exact maybe_said.
  - apply Forall2_cons. split; [|by apply Forall2_nil]. exists R0. eexists. split; [reflexivity|]. split; reflexivity.
Qed.
(** "-m ab -a 1": refused by a validator of the text. *)
Example C68_validator_example : exists a', argus_parse (H := libc0) refused_ctx [$"-m"; $"ab"; $"-a"; $"1"] = Ok (Returned 29, a') /\
  stderr_of (H := libc0) pcre0 prog0 a' = Ok ($"app: Value 'ab' does not match required pattern: user@host" ++
    line_end ++ line_end ++ line_end ++ $"Try 'app --help' for more information." ++ line_end).
Proof.
  apply (C68_refused (H := libc0) pcre0 refused_ctx [$"-m"; $"ab"; $"-a"; $"1"] [] 0 1 (Some ($"ab"))
    [Call 0 2 (Some ($"1"))] R0 mail refused_ctx 29 ($"Value 'ab' does not match required pattern: user@host") [] prog0 refused_starts (refused_accepted []) refused_strays refused_ready (env_sorts [])).
  - apply (check_harmless_failed libc0 refused_ctx _ 29 refused_fresh); [discriminate|vm_compute; reflexivity|vm_compute; reflexivity].
  - apply reads_plan; [exact refused_fresh|vm_compute; reflexivity].
  - reflexivity.
  - reflexivity.
  - reflexivity.
  - exact mail_said.
  - by apply Forall2_nil.
Qed.
(** MAIL is fine, ALL is not. *)
Definition bad_env : list (cstr * cstr) := [($"ALL", $"1-3,2x,z"); ($"MAIL", $"a@b")].
Example C68_environment_example : exists a', argus_parse (H := libc_env bad_env) refused_ctx [$"run"; $"5"] = Ok (Returned 16, a') /\
  stderr_of (H := libc_env bad_env) pcre0 prog0 a' = Ok ($"app: Invalid integer or range format: '2x'" ++ line_end).
Proof.
  pose (a1 := of_run (libc_env bad_env) refused_ctx [Enter 0 3; Call 1 2 (Some ($"5"))]).
  apply (C68_environment (H := libc_env bad_env) pcre0 refused_ctx [$"run"; $"5"] [Enter 0 3; Call 1 2 (Some ($"5"))] 0 2 (Some ($"1-3,2x,z"))
    [Call 0 1 (Some ($"a@b"))] [] R0 alls a1 (of_run (libc_env bad_env) a1 [Call 0 1 (Some ($"a@b"))]) 16 ($"Invalid integer or range format: '2x'") prog0
    refused_starts (refused_accepted _) refused_strays refused_ready (env_sorts _)).
  - apply (check_harmless (libc_env bad_env) refused_ctx _ refused_fresh); vm_compute; reflexivity.
  - apply reads_plan; [exact refused_fresh|vm_compute; reflexivity].
  - vm_compute. reflexivity.
  - vm_compute. reflexivity.
  - vm_compute. reflexivity.
  - reflexivity.
  - reflexivity.
  - apply all_said.
Qed.
Example C68_determined_example : ~ value_taken (H := libc0) alls (Some ($"1-3,2x,z")).
Proof. exact (proj1 (C68_determined (H := libc0) pcre0 _ _ _ _ (all_said []))). Qed.
Example C68_decided_example : value_taken (H := libc0) alls (Some ($"1-3,7")).
Proof.
  destruct (C68_decided (H := libc0) pcre0 refused_ctx [$"-a"; $"1-3,7"; $"run"] [] 0 2 (Some ($"1-3,7")) [Enter 0 3] R0 alls refused_ctx
    refused_starts (refused_accepted []) refused_strays refused_ready (env_sorts [])) as (st & a2 & E & [[_ Ht]|[tx Hs]]).
  - apply (check_harmless libc0 refused_ctx _ refused_fresh); vm_compute; reflexivity.
  - apply reads_plan; [exact refused_fresh|vm_compute; reflexivity].
  - reflexivity.
  - reflexivity.
  - reflexivity.
  - exact Ht.
  - apply said_codes in Hs. vm_compute in E. injection E as <- _. destruct Hs as [?|[?|?]]; discriminate.
Qed.
