(** * What a parse prints on standard output: property C80 *)
From Coq Require Import Lia.
From Verif Require Import Macros Validate Api LibProofs SpecGrammar GrammarProofs SpecAfter
  SpecStructure StructProofs SpecRequest SpecTrust SpecHelp Messages SpecTold SpecMessages Stdout SpecStdout StdoutProofs
  ExLib ExDisplay ExGrammar ExAfter ExStructure PropsDisplay PropsRequest PropsTrust PropsMessages SpecAfter.

(** "prog sub … --help": the program ends with success, having printed the usage and the help of
    exactly that command and nothing else, whatever follows on the line. *)
Theorem C80_help `{Libc, Printf} (pcre : cstr -> cstr) p a names t T w post o a' h :
  accepted a -> no_strays (decls a) (a_root a) ->
  path (decls a) (a_root a) names t -> a_tabs a !! t = Some T -> leaving_word T HHelp w ->
  printf_ok -> good_config (p_config p) -> showable_table (a_prefix a) T -> fitting_table (p_config p) (a_prefix a) T ->
  oom h = [] ->
  argus_parse a (names ++ w :: post) = Ok (o, a') ->
  o = Exited 0 /\ stderr_of pcre p a' = Ok [] /\
  exists u h', stdout_of p a' h = Shown (tt, Dst (usage_line p names T ++ u) h') /\ SpecHelp.released h h' /\
    help_screen p (a_prefix a) names T u.
Proof. exact (path_help pcre p a names t T w post o a' h). Qed.
Print Assumptions C80_help.
Definition parsed0 (a : argus) (argv : list cstr) : argus :=
  match argus_parse (H := libc0) a argv with Ok (_, a') => a' | UB _ => a end.
Definition T_run : list opt := default [] (ex_help !! 1%nat).
Lemma help_strays : no_strays (decls ex_help_ctx) 0.
Proof. apply straysb_ok. vm_compute. reflexivity. Qed.
Lemma run_path : path (decls ex_help_ctx) 0 [$"run"] 1.
Proof.
  eapply (path_sub _ _ T_help_decls 9); try reflexivity; [discriminate| |apply path_here].
  intros j e r Hj He Ht. do 9 (destruct j as [|j]; [injection He as <-; done|]). lia.
Qed.
Lemma help_word T o : o ∈ T -> decl_of o = decl_of HELP_OPTION -> leaving_word T HHelp ($"-h") /\ leaving_word T HHelp ($"--help").
Proof.
  intros Ho E. split; exists o; (split; [done|]); rewrite E; split_and!; try reflexivity.
  - apply (ty_letter (decl_of HELP_OPTION)). split; [discriminate|apply not_in_dec; reflexivity].
  - apply (ty_long (decl_of HELP_OPTION) ($"help")); [reflexivity|].
    split; [apply not_in_dec; reflexivity|apply Nat.leb_le; reflexivity].
Qed.
(** "prog run -h --nonsense" *)
Example C80_help_example : exists a' u h',
  argus_parse (H := libc0) ex_help_ctx [$"run"; $"-h"; $"--nonsense"] = Ok (Exited 0, a') /\
  stderr_of (H := libc0) pcre0 ex_program a' = Ok [] /\
  stdout_of (H := libc0) (H0 := printf0) ex_program a' heap0 =
    Shown (tt, Dst (($"Usage: prog run [OPTIONS] <what> [files...]" ++ [newline]) ++ u) h') /\
  help_screen (H := libc0) (H0 := printf0) ex_program (Some ($"APP")) [$"run"] T_run u.
Proof.
  exists (parsed0 ex_help_ctx [$"run"; $"-h"; $"--nonsense"]).
  assert (E : argus_parse (H := libc0) ex_help_ctx ([$"run"] ++ $"-h" :: [$"--nonsense"]) =
    Ok (Exited 0, parsed0 ex_help_ctx [$"run"; $"-h"; $"--nonsense"])) by (vm_compute; reflexivity).
  destruct (C80_help (H := libc0) (H0 := printf0) pcre0 ex_program ex_help_ctx [$"run"] 1 T_run ($"-h") [$"--nonsense"] (Exited 0)
    (parsed0 ex_help_ctx [$"run"; $"-h"; $"--nonsense"]) heap0 help_accepted help_strays run_path eq_refl) as (_ & Herr & u & h' & Hout & _ & Hs).
  - eapply (help_word _ HELP_OPTION); [left|reflexivity].
  - apply printf0_ok.
  - split; [cbn; lia|reflexivity].
  - apply showable_tableb_ok. vm_compute. reflexivity.
  - apply fitting_tableb_ok. vm_compute. reflexivity.
  - reflexivity.
  - exact E.
  - exists u, h'. split; [exact E|]. split; [exact Herr|]. split; [exact Hout|exact Hs].
Qed.
(** The whole text *)
Example C80_help_text :
  match argus_parse (H := libc0) ex_help_ctx [$"run"; $"-h"; $"--nonsense"] with
  | Ok (_, a') => screen (fun s => stdout_of (H := libc0) (H0 := printf0) ex_program a' (s_heap s))
  | UB _ => None
  end = Some (
    $"Usage: prog run [OPTIONS] <what> [files...]" ++ [newline] ++
    [newline] ++ $"Arguments:" ++ [newline] ++
    $"  <what>                        - text (required)" ++ [newline] ++
    $"  [files...]                    - text" ++ [newline] ++
    [newline] ++ $"Options:" ++ [newline] ++
    $"  -h, --help                    - Show help message (exit)" ++ [newline] ++ [newline]).
Proof. vm_compute. reflexivity. Qed.

(** "prog sub … --version": the version, and nothing else. *)
Theorem C80_version `{Libc, Printf} (pcre : cstr -> cstr) p a names t T w post o a' h :
  accepted a -> no_strays (decls a) (a_root a) ->
  path (decls a) (a_root a) names t -> a_tabs a !! t = Some T -> leaving_word T HVersion w ->
  argus_parse a (names ++ w :: post) = Ok (o, a') ->
  o = Exited 0 /\ stderr_of pcre p a' = Ok [] /\ stdout_of p a' h = Shown (tt, Dst (version_text p) h).
Proof. exact (path_version pcre p a names t T w post o a' h). Qed.
Print Assumptions C80_version.
Example C80_version_example : exists a',
  argus_parse (H := libc0) ex_help_ctx [$"--version"; $"run"] = Ok (Exited 0, a') /\
  stdout_of (H := libc0) (H0 := printf0) ex_program a' heap0 =
    Shown (tt, Dst ($"prog v1.2" ++ [newline] ++ [newline] ++ $"An example" ++ [newline]) heap0).
Proof.
  exists (parsed0 ex_help_ctx [$"--version"; $"run"]).
  assert (E : argus_parse (H := libc0) ex_help_ctx ([] ++ $"--version" :: [$"run"]) =
    Ok (Exited 0, parsed0 ex_help_ctx [$"--version"; $"run"])) by (vm_compute; reflexivity).
  destruct (C80_version (H := libc0) (H0 := printf0) pcre0 ex_program ex_help_ctx [] 0 T_help ($"--version") [$"run"] (Exited 0)
    (parsed0 ex_help_ctx [$"--version"; $"run"]) heap0 help_accepted help_strays (path_here _ _) eq_refl) as (_ & _ & Hout).
  - exists VERSION_OPTION. split; [right; left|]. split_and!; try reflexivity.
    apply (ty_long (decl_of VERSION_OPTION) ($"version")); [reflexivity|].
    split; [apply not_in_dec; reflexivity|apply Nat.leb_le; reflexivity].
  - exact E.
  - split; [exact E|exact Hout].
Qed.

(** A line that is refused: the usage of the command entered last, and nothing else (the message and
    the pointer to the help go to standard error, C67). *)
Theorem C80_refused `{Libc, Printf} p a argv its c m cs t T o a' h :
  stops_at a argv its c m -> called (decls a) its cs -> screens_leave (decls a) ->
  current (decls a) (a_root a) its t -> a_tabs a !! t = Some T ->
  (forall x, x ∈ T -> d_type (decl_of x) = TPositional -> is_Some (d_name (decl_of x))) ->
  argus_parse a argv = Ok (o, a') ->
  o = Returned c /\ stdout_of p a' h = Shown (tt, Dst (usage_line p cs T) h).
Proof. exact (refused_usage p a argv its c m cs t T o a' h). Qed.
Print Assumptions C80_refused.
Definition screens_leaveb (D : list (list decl)) : bool :=
  forallb (forallb (fun d => match d_handler d with
    | Some HHelp | Some HVersion => N.testbit (d_flags d) 5 | _ => true end)) D.
Lemma screens_leaveb_ok D : screens_leaveb D = true -> screens_leave D.
Proof.
  unfold screens_leaveb. intros E T d HT Hd Hh. rewrite forallb_forall in E.
  specialize (E T ltac:(by apply elem_of_list_In)). cbn beta in E. rewrite forallb_forall in E.
  specialize (E d ltac:(by apply elem_of_list_In)). cbn beta in E. by destruct Hh as [X|X]; rewrite X in E.
Qed.
(** "app --verbose start --nope=3 x" *)
Example C80_refused_example : exists a',
  argus_parse (H := libc0) ex_tree_ctx [$"--verbose"; $"start"; $"--nope=3"; $"x"] = Ok (Returned 12, a') /\
  stdout_of (H := libc0) (H0 := printf0) prog0 a' heap0 =
    Shown (tt, Dst (usage_line prog0 [$"start"] (default [] (ex_tree !! 1%nat))) heap0).
Proof.
  exists (parsed0 ex_tree_ctx [$"--verbose"; $"start"; $"--nope=3"; $"x"]). split; [vm_compute; reflexivity|].
  refine (proj2 (C80_refused (H := libc0) (H0 := printf0) prog0 ex_tree_ctx [$"--verbose"; $"start"; $"--nope=3"; $"x"]
    [Call 0 1 None; Enter 0 2] 12 (quoted_long $"Unknown option: " $"nope") [$"start"] 1 (default [] (ex_tree !! 1%nat)) (Returned 12)
    (parsed0 ex_tree_ctx [$"--verbose"; $"start"; $"--nope=3"; $"x"]) heap0 _ _ _ _ _ _ _)).
  - destruct tree_starts as (S1 & S2 & S3). destruct sub_reached as [R1 R2 R3 [R4 _]]. split; try done.
    + apply (R4 [$"--nope=3"; $"x"] [Reject 12 (quoted_long $"Unknown option: " $"nope")]).
      apply (r_long_unknown _ 1 T1' 0 ($"nope") ($"=3")); [done|by apply not_in_dec|done|right; by exists ($"3")|].
      apply dlong_None. vm_compute. reflexivity.
    + eexists. vm_compute. reflexivity.
  - by apply start_called.
  - apply screens_leaveb_ok. vm_compute. reflexivity.
  - exists T0'. eexists. split; [reflexivity|]. split; reflexivity.
  - reflexivity.
  - intros x Hx Ht. repeat (apply elem_of_cons in Hx as [->|Hx]; [first [by eexists|done]|]). by apply elem_of_nil in Hx.
  - vm_compute. reflexivity.
Qed.
Example C80_refused_text :
  usage_line prog0 [$"start"] (default [] (ex_tree !! 1%nat)) = $"Usage: app start [OPTIONS] <what>" ++ [newline].
Proof. vm_compute. reflexivity. Qed.

(** A parse that succeeds prints nothing. *)
Theorem C80_success `{Libc, Printf} p a argv a' h :
  accepted a -> no_strays (decls a) (a_root a) -> screens_leave (decls a) ->
  argus_parse a argv = Ok (Returned 0, a') -> stdout_of p a' h = Shown (tt, Dst [] h).
Proof. intros Ha Hns. exact (success_silent p a argv a' h (accepted_ready a Ha Hns) (accepted_log a Ha)). Qed.
Print Assumptions C80_success.
Example C80_success_example : exists a',
  argus_parse (H := libc0) ex_help_ctx [$"--port"; $"81"; $"run"; $"x"; $"y"] = Ok (Returned 0, a') /\
  stdout_of (H := libc0) (H0 := printf0) ex_program a' heap0 = Shown (tt, Dst [] heap0).
Proof.
  exists (parsed0 ex_help_ctx [$"--port"; $"81"; $"run"; $"x"; $"y"]).
  assert (E : argus_parse (H := libc0) ex_help_ctx [$"--port"; $"81"; $"run"; $"x"; $"y"] =
    Ok (Returned 0, parsed0 ex_help_ctx [$"--port"; $"81"; $"run"; $"x"; $"y"])) by (vm_compute; reflexivity).
  split; [exact E|]. refine (C80_success (H := libc0) (H0 := printf0) ex_program ex_help_ctx _ _ heap0 help_accepted help_strays _ E).
  apply screens_leaveb_ok. vm_compute. reflexivity.
Qed.
(** Without the flag that leaves the program, an option of the help handler prints its screen and the
    parse goes on. *)
Definition stays : list (list opt) :=
  [[OPTION_FLAG "h" (Some ($"help")) [hlp; HANDLER HHelp]]].
Theorem C80_success_refuted : exists a argv a',
  accepted (H := libc0) a /\ no_strays (decls a) (a_root a) /\
  argus_parse (H := libc0) a argv = Ok (Returned 0, a') /\
  exists c u h', stdout_of (H := libc0) (H0 := printf0) ex_program a' heap0 = Shown (tt, Dst (c :: u) h').
Proof.
  exists (make_argus stays 0 None), [$"-h"], (parsed0 (make_argus stays 0 None) [$"-h"]). split; [|split; [|split]].
  - exists 3%nat, stays, 0%nat, None. split; [vm_compute; reflexivity|done].
  - apply straysb_ok. vm_compute. reflexivity.
  - vm_compute. reflexivity.
  - eexists _, _, _. vm_compute. reflexivity.
Qed.
Print Assumptions C80_success_refuted.
