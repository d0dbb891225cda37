(** * What the overview of commands promises: property C85 *)
From stdpp Require Import sets.
From Coq Require Import Lia.
From Verif Require Import Macros Validate Api Display SpecGrammar SpecAfter AfterFacts MoreFacts CommandProofs
  DisplayFacts ExLib ExDisplay ExAfter PropsDisplay TypedProofs.

(** The words of a path select the command they name, and argus_exec then runs its action, however
    deep it is and whatever options and positionals follow. *)
Theorem C85_runs `{Libc} act a ws rs d t post its a' f : fresh a ->
  names (decls a) (a_root a) ws rs d t -> reads (decls a) t 0 false post its -> entered its = [] ->
  argus_parse a (ws ++ post) = Ok (Returned 0, a') -> d_action d = Some f ->
  argus_exec act a' = Ok (act f, add_log a' [EAction f]).
Proof. exact (typed_runs act a ws rs d t post its a' f). Qed.
Print Assumptions C85_runs.
(** The overview lists every command of one or two words by exactly those words. *)
Theorem C85_listed p a ws rs d t f T h u s :
  a_tabs a !! a_root a = Some T -> short_paths (p_name p) (a_tabs a) T ->
  names (decls a) (a_root a) ws rs d t -> (length ws <= 2)%nat -> d_action d = Some f ->
  display_all_commands p a (Dst [] h) = Shown (u, Dst s h) ->
  shows (command_line (p_config p) (typed (p_name p) ws) (d_help d)) s.
Proof. exact (typed_listed p a ws rs d t f T h u s). Qed.
Print Assumptions C85_listed.

(** prog run, prog remote {add, remove} *)
Definition ex_typed : list (list opt) :=
  [[HELP_OPTION;
    SUBCOMMAND (Some ($"run")) (Some 2%nat) [HELP ($"Run it"); ACTION 7];
    SUBCOMMAND (Some ($"remote")) (Some 1%nat) [HELP ($"Remotes")]];
   [HELP_OPTION;
    SUBCOMMAND (Some ($"add")) (Some 2%nat) [HELP ($"Add"); ACTION 1];
    SUBCOMMAND (Some ($"remove")) (Some 2%nat) [HELP ($"Remove"); ACTION 2]];
   [HELP_OPTION]].
Definition ex_typed_ctx : argus := make_argus ex_typed 0 None.
Definition D_remote : decl := decl_of (SUBCOMMAND (Some ($"remote")) (Some 1%nat) [HELP ($"Remotes")]).
Definition D_remove : decl :=
  decl_of (SUBCOMMAND (Some ($"remove")) (Some 2%nat) [HELP ($"Remove"); ACTION 2]).
Example C85_named :
  names (decls ex_typed_ctx) 0 [$"remote"; $"remove"] [(0, 2); (1, 2)]%nat D_remove 2.
Proof.
  apply (names_more _ 0%nat (default [] (decls ex_typed_ctx !! 0%nat)) _ 2 D_remote 1);
    [reflexivity| |reflexivity|].
  - split; [reflexivity|]. split; [reflexivity|]. split; [reflexivity|]. split; [done|].
    intros [|[|j]] e r Hj He Ht; [| |lia]; vm_compute in He; injection He as <-; done.
  - apply (names_one _ 1%nat (default [] (decls ex_typed_ctx !! 1%nat))); [reflexivity| |reflexivity].
    split; [reflexivity|]. split; [reflexivity|]. split; [reflexivity|]. split; [done|].
    intros [|[|j]] e r Hj He Ht; [| |lia]; vm_compute in He; injection He as <-; done.
Qed.
Example C85_example :
  fresh ex_typed_ctx /\ reads (decls ex_typed_ctx) 2 0 false [] [] /\
  (let a' := ran libc0 ex_typed_ctx [$"remote"; $"remove"] in
   argus_parse (H := libc0) ex_typed_ctx ([$"remote"; $"remove"] ++ []) = Ok (Returned 0, a') /\
   argus_exec (fun n => Z.of_nat n + 40) a' = Ok (42, add_log a' [EAction 2])) /\
  d_action D_remove = Some 2%nat.
Proof.
  split; [apply freshb_ok; vm_compute; reflexivity|]. split; [constructor|].
  split; [split; vm_compute; reflexivity|reflexivity].
Qed.
Example C85_listed_example :
  short_paths ($"prog") ex_typed (default [] (head ex_typed)) /\
  typed ($"prog") [$"remote"; $"remove"] = $"prog remote remove" /\
  screen (display_all_commands ex_program ex_typed_ctx) = Some (
    $"No command specified." ++ [newline; newline] ++ $"Available commands:" ++ [newline] ++
    $"  prog run                      - Run it" ++ [newline] ++ [newline] ++
    $"  prog remote add               - Add" ++ [newline] ++
    $"  prog remote remove            - Remove" ++ [newline] ++ [newline] ++
    $"Run 'prog COMMAND --help' for more information on a specific command." ++ [newline]).
Proof. split; [apply short_pathsb_ok; vm_compute; reflexivity|split; vm_compute; reflexivity]. Qed.

(** A command whose name begins the name of an earlier one is listed too, but cannot be called: the
    word is refused as ambiguous. *)
Definition ex_hidden : list (list opt) :=
  [[HELP_OPTION;
    SUBCOMMAND (Some ($"remote")) (Some 1%nat) [HELP ($"Remotes"); ACTION 1];
    SUBCOMMAND (Some ($"rem")) (Some 1%nat) [HELP ($"Remember"); ACTION 2]];
   [HELP_OPTION]].
Definition ex_hidden_ctx : argus := make_argus ex_hidden 0 None.
Theorem C85_hidden_refuted :
  argus_init (H := libc0) 5 ex_hidden 0 0 = Ok (Some ex_hidden_ctx, O) /\
  (exists s, screen (display_all_commands ex_program ex_hidden_ctx) = Some s /\
     shows (command_line default_config ($"prog rem") (Some ($"Remember"))) s) /\
  exists a', argus_parse (H := libc0) ex_hidden_ctx [$"rem"] = Ok (Returned E_AMBIGUOUS_SUBCOMMAND, a').
Proof.
  split; [vm_compute; reflexivity|]. split.
  - exists (default [] (screen (display_all_commands ex_program ex_hidden_ctx))).
    split; [vm_compute; reflexivity|].
    exists ($"No command specified." ++ [newline; newline] ++ $"Available commands:" ++ [newline] ++
      $"  prog remote                   - Remotes" ++ [newline]),
      ([newline] ++ $"Run 'prog COMMAND --help' for more information on a specific command." ++ [newline]).
    vm_compute. reflexivity.
  - exists (ran libc0 ex_hidden_ctx [$"rem"]). vm_compute. reflexivity.
Qed.
Print Assumptions C85_hidden_refuted.

(** The screen for a command that cannot be run lists the commands below it, at every depth, by the
    words that come after those already typed. *)
Theorem C85_below `{Libc} act p a b ws rs d t r o n T body cmds ws' rs' d' t' post its a' f h : fresh a ->
  decls b = decls a -> get_option b (fst r) (snd r) = Ok o -> d_name (decl_of o) = Some n ->
  d_sub (decl_of o) = Some t -> a_tabs b !! t = Some T ->
  lists_below (p_config p) (a_tabs b) n T body -> selected b cmds ->
  names (decls a) (a_root a) ws rs d t -> names (decls a) t ws' rs' d' t' -> d_action d' = Some f ->
  (exists s f0, (forall fuel, (f0 <= fuel)%nat ->
     display_available_subcommands fuel p b r (Dst [] h) = Shown (tt, Dst s h)) /\
   shows (command_line (p_config p) (typed n ws') (d_help d')) s) /\
  (reads (decls a) t' 0 false post its -> entered its = [] ->
   argus_parse a (ws ++ ws' ++ post) = Ok (Returned 0, a') ->
   argus_exec act a' = Ok (act f, add_log a' [EAction f])).
Proof. exact (typed_below act p a b ws rs d t r o n T body cmds ws' rs' d' t' post its a' f h). Qed.
Print Assumptions C85_below.

(** prog outer {inner {leaf}} *)
Definition ex_inner : list (list opt) :=
  [[HELP_OPTION; SUBCOMMAND (Some ($"outer")) (Some 1%nat) [HELP ($"Outer")]];
   [HELP_OPTION; SUBCOMMAND (Some ($"inner")) (Some 2%nat) [HELP ($"Inner")]];
   [HELP_OPTION; SUBCOMMAND (Some ($"leaf")) (Some 3%nat) [HELP ($"Leaf"); ACTION 5]];
   [HELP_OPTION]].
Definition ex_inner_ctx : argus := make_argus ex_inner 0 None.
Definition D_outer : decl := decl_of (SUBCOMMAND (Some ($"outer")) (Some 1%nat) [HELP ($"Outer")]).
Definition D_inner : decl := decl_of (SUBCOMMAND (Some ($"inner")) (Some 2%nat) [HELP ($"Inner")]).
Definition D_leaf : decl := decl_of (SUBCOMMAND (Some ($"leaf")) (Some 3%nat) [HELP ($"Leaf"); ACTION 5]).
Definition T_inner (t : nat) : list opt := default [] (ex_inner !! t).
Example C85_below_example :
  fresh ex_inner_ctx /\
  names (decls ex_inner_ctx) 0 [$"outer"] [(0, 1)]%nat D_outer 1 /\
  names (decls ex_inner_ctx) 1 [$"inner"; $"leaf"] [(1, 1); (2, 1)]%nat D_leaf 3 /\
  lists_below default_config ex_inner ($"outer") (T_inner 1)
    ($"  outer inner                   - Inner" ++ [newline] ++
     $"  outer inner leaf              - Leaf" ++ [newline]) /\
  (let a' := ran libc0 ex_inner_ctx [$"outer"; $"inner"; $"leaf"] in
   argus_parse (H := libc0) ex_inner_ctx [$"outer"; $"inner"; $"leaf"] = Ok (Returned 0, a') /\
   argus_exec (fun n => Z.of_nat n + 40) a' = Ok (45, add_log a' [EAction 5])) /\
  (let b := ran libc0 ex_inner_ctx [$"outer"] in
   decls b = decls ex_inner_ctx /\ selected b [$"outer"] /\
   screen (display_available_subcommands 9 ex_program b (0, 1)%nat) = Some (
     $"The 'outer' command cannot be executed by itself." ++ [newline; newline] ++
     $"Available commands:" ++ [newline] ++
     $"  outer inner                   - Inner" ++ [newline] ++
     $"  outer inner leaf              - Leaf" ++ [newline] ++
     [newline] ++ $"Run 'prog outer SUBCOMMAND --help' for more information." ++ [newline])).
Proof.
  assert (C : forall t w d, map decl_of (T_inner t) !! 1%nat = Some d -> d_type d = TSubcommand ->
    d_name d = Some w -> (forall s, w <> "-"%char :: s) -> (t < 3)%nat -> callable (map decl_of (T_inner t)) w 1 d).
  { intros t w d Hd Ht Hn Hw Hl. split; [exact Hd|]. split; [exact Ht|]. split; [exact Hn|]. split; [exact Hw|].
    intros [|j] e r Hj He Hte; [|lia].
    destruct t as [|[|[|t]]]; [| | |lia]; vm_compute in He; injection He as <-; done. }
  split; [apply freshb_ok; vm_compute; reflexivity|]. split.
  { apply (names_one _ 0%nat (map decl_of (T_inner 0))); [reflexivity| |reflexivity]. apply C; try reflexivity; [done|lia]. }
  split.
  { apply (names_more _ 1%nat (map decl_of (T_inner 1)) _ 1 D_inner 2);
      [reflexivity|apply C; try reflexivity; [done|lia]|reflexivity|].
    apply (names_one _ 2%nat (map decl_of (T_inner 2))); [reflexivity| |reflexivity].
    apply C; try reflexivity; [done|lia]. }
  split; [|split; [split; vm_compute; reflexivity|]].
  2:{ split; [vm_compute; reflexivity|]. split; [|vm_compute; reflexivity].
      unfold selected. replace (a_stack _) with [(0, 1)%nat] by (vm_compute; reflexivity).
      constructor; [|constructor].
      exists (with_set (SUBCOMMAND (Some ($"outer")) (Some 1%nat) [HELP ($"Outer")]) true).
      split; vm_compute; reflexivity. }
  apply below_other; [reflexivity|].
  refine (below_node default_config ex_inner _ _ ($"inner") [] [] 2 (T_inner 2)
    ($"  outer inner leaf              - Leaf" ++ [newline]) _ _ _ _ _ _ _);
    [reflexivity|reflexivity|cbn; lia|reflexivity|reflexivity| |apply below_nil].
  apply below_other; [reflexivity|].
  refine (below_node default_config ex_inner _ _ ($"leaf") [] [] 3 (T_inner 3) [] _ _ _ _ _ _ _);
    [reflexivity|reflexivity|cbn; lia|reflexivity|reflexivity| |apply below_nil].
  apply below_other; [reflexivity|]. apply below_nil.
Qed.
(** The lines of that screen begin with the last command typed, without the ones before it: after
    `prog outer inner` it lists `inner leaf`, which the program does not understand. *)
Theorem C85_below_refuted :
  argus_init (H := libc0) 5 ex_inner 0 0 = Ok (Some ex_inner_ctx, O) /\
  (let a' := ran libc0 ex_inner_ctx [$"outer"; $"inner"] in
   argus_parse (H := libc0) ex_inner_ctx [$"outer"; $"inner"] = Ok (Returned 0, a') /\
   a_stack a' = [(0, 1); (1, 1)]%nat /\
   exists s, screen (display_available_subcommands 9 ex_program a' (1, 1)%nat) = Some s /\
     shows (command_line default_config ($"inner leaf") (Some ($"Leaf"))) s) /\
  exists c a', argus_parse (H := libc0) ex_inner_ctx [$"inner"; $"leaf"] = Ok (Returned c, a') /\ c <> 0.
Proof.
  split; [vm_compute; reflexivity|]. split.
  - split; [vm_compute; reflexivity|]. split; [vm_compute; reflexivity|].
    exists ($"The 'inner' command cannot be executed by itself." ++ [newline; newline] ++
      $"Available commands:" ++ [newline] ++ $"  inner leaf                    - Leaf" ++ [newline] ++
      [newline] ++ $"Run 'prog outer inner SUBCOMMAND --help' for more information." ++ [newline]).
    split; [vm_compute; reflexivity|].
    exists ($"The 'inner' command cannot be executed by itself." ++ [newline; newline] ++
      $"Available commands:" ++ [newline]),
      ([newline] ++ $"Run 'prog outer inner SUBCOMMAND --help' for more information." ++ [newline]).
    vm_compute. reflexivity.
  - exists 12, (ran libc0 ex_inner_ctx [$"inner"; $"leaf"]). split; [vm_compute; reflexivity|done].
Qed.
Print Assumptions C85_below_refuted.
