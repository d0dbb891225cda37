(** * Help and version anywhere on the line: more of property C80 *)
From Coq Require Import Lia.
From Verif Require Import Macros Validate Api LibProofs SpecGrammar GrammarProofs SpecAfter
  SpecStructure StructProofs SpecRequest SpecTrust SpecHelp Messages SpecTold SpecMessages Stdout SpecStdout StdoutProofs
  SpecMemory SpecContents SpecSafe SpecCollections SpecMacros MacroProofs SafeFacts AnywhereProofs
  ExLib ExDisplay ExGrammar ExAfter ExStructure ExMemory PropsDisplay PropsRequest PropsTrust PropsTold PropsMessages PropsStdout SpecSafe SpecAfter.

(** After any words that are read and carried out without error: options and their values, positionals
    and subcommands.  Whatever follows, the program ends with success, having printed the usage and
    the help of the command entered last, and nothing else. *)
Theorem C80_help_anywhere `{Libc, Printf} (pcre : cstr -> cstr) p a pre t T k its a1 cs w post h :
  accepted a -> no_strays (decls a) (a_root a) -> ready a -> qsort_sorts ->
  library_only (decls a) -> screens_leave (decls a) ->
  reached a pre t (map decl_of T) k false its -> harmless_items a its -> perform a its = Ok (0, a1) -> called (decls a) its cs ->
  a_tabs a !! t = Some T -> leaving_word T HHelp w ->
  printf_ok -> good_config (p_config p) -> showable_table (a_prefix a) T -> fitting_table (p_config p) (a_prefix a) T ->
  oom h = [] ->
  exists a', argus_parse a (pre ++ w :: post) = Ok (Exited 0, a') /\ stderr_of pcre p a' = Ok [] /\
  exists u h', stdout_of p a' h = Shown (tt, Dst (usage_line p cs T ++ u) h') /\ SpecHelp.released h h' /\
    help_screen p (a_prefix a) cs T u.
Proof. exact (anywhere_help pcre p a pre t T k its a1 cs w post h). Qed.
Print Assumptions C80_help_anywhere.
Theorem C80_version_anywhere `{Libc, Printf} (pcre : cstr -> cstr) p a pre t T k its a1 cs w post h :
  accepted a -> no_strays (decls a) (a_root a) -> ready a -> qsort_sorts ->
  library_only (decls a) -> screens_leave (decls a) ->
  reached a pre t (map decl_of T) k false its -> harmless_items a its -> perform a its = Ok (0, a1) -> called (decls a) its cs ->
  a_tabs a !! t = Some T -> leaving_word T HVersion w ->
  exists a', argus_parse a (pre ++ w :: post) = Ok (Exited 0, a') /\ stderr_of pcre p a' = Ok [] /\
    stdout_of p a' h = Shown (tt, Dst (version_text p) h).
Proof. exact (anywhere_version pcre p a pre t T k its a1 cs w post h). Qed.
Print Assumptions C80_version_anywhere.
(** After a path of names nothing need be assumed about the parse. *)
Theorem C80_help_always `{Libc, Printf} (pcre : cstr -> cstr) p a names t T w post h :
  accepted a -> no_strays (decls a) (a_root a) -> ready a -> qsort_sorts ->
  path (decls a) (a_root a) names t -> a_tabs a !! t = Some T -> leaving_word T HHelp w ->
  printf_ok -> good_config (p_config p) -> showable_table (a_prefix a) T -> fitting_table (p_config p) (a_prefix a) T ->
  oom h = [] ->
  exists a', argus_parse a (names ++ w :: post) = Ok (Exited 0, a') /\ stderr_of pcre p a' = Ok [] /\
  exists u h', stdout_of p a' h = Shown (tt, Dst (usage_line p names T ++ u) h') /\ SpecHelp.released h h' /\
    help_screen p (a_prefix a) names T u.
Proof. exact (path_help_always pcre p a names t T w post h). Qed.
Print Assumptions C80_help_always.
Theorem C80_version_always `{Libc, Printf} (pcre : cstr -> cstr) p a names t T w post h :
  accepted a -> no_strays (decls a) (a_root a) -> ready a -> qsort_sorts ->
  path (decls a) (a_root a) names t -> a_tabs a !! t = Some T -> leaving_word T HVersion w ->
  exists a', argus_parse a (names ++ w :: post) = Ok (Exited 0, a') /\ stderr_of pcre p a' = Ok [] /\
    stdout_of p a' h = Shown (tt, Dst (version_text p) h).
Proof. exact (path_version_always pcre p a names t T w post h). Qed.
Print Assumptions C80_version_always.

(** ** Examples *)
Lemma help_built : built_tables ex_help.
Proof. builds; intros e He; repeat (apply elem_of_cons in He as [->|He]); first [by apply elem_of_nil in He|done|by vm_compute]. Qed.
Lemma help_ready : ready ex_help_ctx.
Proof. exact (built_ready _ _ _ help_built). Qed.
Lemma help_library : library_only (decls ex_help_ctx).
Proof. apply library_dec. vm_compute. reflexivity. Qed.
Lemma help_leaves : screens_leave (decls ex_help_ctx).
Proof. apply screens_leaveb_ok. vm_compute. reflexivity. Qed.
Definition its_words : list item := [Call 0 2 (Some ($"81")); Enter 0 9; Call 1 1 (Some ($"x"))].
Lemma words_reached : reached ex_help_ctx [$"--port"; $"81"; $"run"; $"x"] 1 (map decl_of T_run) 1 false its_words.
Proof.
  constructor.
  - apply subs_presentb_ok; vm_compute; reflexivity.
  - eexists. reflexivity.
  - reflexivity.
  - change its_words with ([Call 0 2 (Some ($"81"))] ++ ([Enter 0 9] ++ [Call 1 1 (Some ($"x"))])).
    change [$"--port"; $"81"; $"run"; $"x"] with ([$"--port"; $"81"] ++ ([$"run"] ++ [$"x"])).
    eapply leads_trans.
    { eapply (leads_long _ 0 T_help_decls 0 ($"port")); [reflexivity|by apply not_in_dec|done|vm_compute; reflexivity|vm_compute; reflexivity|done]. }
    eapply leads_trans.
    { eapply (leads_sub _ 0 T_help_decls); [reflexivity|done|vm_compute; reflexivity..]. }
    eapply (leads_word _ 1 (map decl_of T_run)); [reflexivity|done|vm_compute; reflexivity..].
Qed.
Lemma words_called : called (decls ex_help_ctx) its_words [$"run"].
Proof. repeat constructor. eexists _, _. split; [reflexivity|]. split; reflexivity. Qed.
Lemma words_harmless : harmless_items (H := libc0) ex_help_ctx its_words.
Proof.
  intros t i v T d Hin HT Hd f Hf. unfold its_words in Hin.
  repeat (apply elem_of_cons in Hin as [Hin|Hin]); [| | |by apply elem_of_nil in Hin]; try done; injection Hin as -> -> ->;
    injection HT as <-; injection Hd as <-; injection Hf as <-; split; by intros [].
Qed.
Definition after_words : argus := match perform (H := libc0) ex_help_ctx its_words with Ok (_, a') => a' | UB _ => ex_help_ctx end.
(** "prog --port 81 run x -h --nonsense" *)
Example C80_help_anywhere_example : exists a',
  argus_parse (H := libc0) ex_help_ctx [$"--port"; $"81"; $"run"; $"x"; $"-h"; $"--nonsense"] = Ok (Exited 0, a') /\
  stderr_of (H := libc0) pcre0 ex_program a' = Ok [] /\
  exists u h', stdout_of (H := libc0) (H0 := printf0) ex_program a' heap0 =
    Shown (tt, Dst (usage_line ex_program [$"run"] T_run ++ u) h') /\ SpecHelp.released heap0 h' /\
  help_screen (H := libc0) (H0 := printf0) ex_program (Some ($"APP")) [$"run"] T_run u.
Proof.
  assert (P : perform (H := libc0) ex_help_ctx its_words = Ok (0, after_words)) by (vm_compute; reflexivity).
  apply (C80_help_anywhere (H := libc0) (H0 := printf0) pcre0 ex_program ex_help_ctx [$"--port"; $"81"; $"run"; $"x"] 1 T_run 1 its_words after_words
    [$"run"] ($"-h") [$"--nonsense"] heap0 help_accepted help_strays help_ready (env_sorts []) help_library help_leaves words_reached words_harmless P words_called eq_refl).
  - eapply (help_word _ HELP_OPTION); [left|reflexivity].
  - apply printf0_ok.
  - split; [cbn; lia|reflexivity].
  - apply showable_tableb_ok. vm_compute. reflexivity.
  - apply fitting_tableb_ok. vm_compute. reflexivity.
  - reflexivity.
Qed.
Example C80_help_always_example : exists a',
  argus_parse (H := libc0) ex_help_ctx [$"run"; $"--help"; $"--nonsense"] = Ok (Exited 0, a') /\
  stderr_of (H := libc0) pcre0 ex_program a' = Ok [] /\
  exists u h', stdout_of (H := libc0) (H0 := printf0) ex_program a' heap0 =
    Shown (tt, Dst (usage_line ex_program [$"run"] T_run ++ u) h') /\ SpecHelp.released heap0 h' /\
  help_screen (H := libc0) (H0 := printf0) ex_program (Some ($"APP")) [$"run"] T_run u.
Proof.
  apply (C80_help_always (H := libc0) (H0 := printf0) pcre0 ex_program ex_help_ctx [$"run"] 1 T_run ($"--help") [$"--nonsense"] heap0
    help_accepted help_strays help_ready (env_sorts []) run_path eq_refl).
  - eapply (help_word _ HELP_OPTION); [left|reflexivity].
  - apply printf0_ok.
  - split; [cbn; lia|reflexivity].
  - apply showable_tableb_ok. vm_compute. reflexivity.
  - apply fitting_tableb_ok. vm_compute. reflexivity.
  - reflexivity.
Qed.
Lemma version_word : leaving_word T_help HVersion ($"--version").
Proof.
  exists VERSION_OPTION. split; [right; left|]. split_and!; try reflexivity.
  apply (ty_long (decl_of VERSION_OPTION) ($"version")); [reflexivity|].
  split; [apply not_in_dec; reflexivity|apply Nat.leb_le; reflexivity].
Qed.
Definition its_port : list item := [Call 0 2 (Some ($"81"))].
Lemma port_reached : reached ex_help_ctx [$"--port"; $"81"] 0 (map decl_of T_help) 0 false its_port.
Proof.
  constructor; [apply subs_presentb_ok; vm_compute; reflexivity|eexists; reflexivity|reflexivity|].
  eapply (leads_long _ 0 T_help_decls 0 ($"port")); [reflexivity|by apply not_in_dec|done|vm_compute; reflexivity|vm_compute; reflexivity|done].
Qed.
Definition after_port : argus := match perform (H := libc0) ex_help_ctx its_port with Ok (_, a') => a' | UB _ => ex_help_ctx end.
(** "prog --port 81 --version --nonsense" *)
Example C80_version_anywhere_example : exists a',
  argus_parse (H := libc0) ex_help_ctx [$"--port"; $"81"; $"--version"; $"--nonsense"] = Ok (Exited 0, a') /\
  stderr_of (H := libc0) pcre0 ex_program a' = Ok [] /\
  stdout_of (H := libc0) (H0 := printf0) ex_program a' heap0 =
    Shown (tt, Dst ($"prog v1.2" ++ [newline] ++ [newline] ++ $"An example" ++ [newline]) heap0).
Proof.
  assert (P : perform (H := libc0) ex_help_ctx its_port = Ok (0, after_port)) by (vm_compute; reflexivity).
  apply (C80_version_anywhere (H := libc0) (H0 := printf0) pcre0 ex_program ex_help_ctx [$"--port"; $"81"] 0 T_help 0 its_port after_port
    [] ($"--version") [$"--nonsense"] heap0 help_accepted help_strays help_ready (env_sorts []) help_library help_leaves port_reached); try done.
  - intros t i v T d Hin. apply words_harmless with (t := t) (i := i). unfold its_port in Hin. apply elem_of_list_singleton in Hin as ->. left.
  - constructor.
  - exact version_word.
Qed.
Example C80_version_always_example : exists a',
  argus_parse (H := libc0) ex_help_ctx [$"--version"; $"run"] = Ok (Exited 0, a') /\
  stderr_of (H := libc0) pcre0 ex_program a' = Ok [] /\
  stdout_of (H := libc0) (H0 := printf0) ex_program a' heap0 =
    Shown (tt, Dst ($"prog v1.2" ++ [newline] ++ [newline] ++ $"An example" ++ [newline]) heap0).
Proof.
  exact (C80_version_always (H := libc0) (H0 := printf0) pcre0 ex_program ex_help_ctx [] 0 T_help ($"--version") [$"run"] heap0
    help_accepted help_strays help_ready (env_sorts []) (path_here _ _) eq_refl version_word).
Qed.
