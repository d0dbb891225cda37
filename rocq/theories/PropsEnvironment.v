(** * Variables of the environment as words of the command line: property C74 *)
From Verif Require Import Validate Api LibProofs SpecGrammar GrammarProofs SpecAfter AfterFacts
  SpecEnvironment EnvLineProofs ExLib ExGrammar MoreFacts ExAfter.

(** ** C74 *)

(** Let a line ask for [its], and another one for the same and then for the values that the variables
    supply.  Then the parse of the first line succeeds with the variables exactly if that of the
    other one succeeds without any variable, with the same context. *)
Theorem C74_as_words `(L : Libc) a argv argv' its a1 :
  fresh a -> reads (decls a) (a_root a) 0 false argv its -> perform a its = Ok (0, a1) ->
  reads (decls a) (a_root a) 0 false argv' (its ++ env_items a1) ->
  forall a', argus_parse a argv = Ok (Returned 0, a') <->
    argus_parse (H := unset L) a argv' = Ok (Returned 0, a').
Proof. exact (fun F R P R' => proj2 (variables_as_words L a argv argv' its a1 F R P R')). Qed.
Print Assumptions C74_as_words.
(** Even if the checks after parsing refuse, the result is the same. *)
Theorem C74_same_checks `(L : Libc) a argv argv' its a1 a2 :
  fresh a -> reads (decls a) (a_root a) 0 false argv its -> perform a its = Ok (0, a1) ->
  reads (decls a) (a_root a) 0 false argv' (its ++ env_items a1) ->
  perform a1 (env_items a1) = Ok (0, a2) ->
  argus_parse a argv = argus_parse (H := unset L) a argv'.
Proof. exact (fun F R P R' => proj1 (variables_as_words L a argv argv' its a1 F R P R') a2). Qed.
Print Assumptions C74_same_checks.
(** If a value is refused, both parses return the same code; but a variable of an option that ends
    the program makes argus_parse return 1, where the word makes the program exit. *)
Theorem C74_refused `(L : Libc) a argv argv' its a1 c a2 o x o' x' :
  fresh a -> reads (decls a) (a_root a) 0 false argv its -> perform a its = Ok (0, a1) ->
  reads (decls a) (a_root a) 0 false argv' (its ++ env_items a1) ->
  perform a1 (env_items a1) = Ok (c, a2) -> c <> 0 ->
  argus_parse a argv = Ok (o, x) -> argus_parse (H := unset L) a argv' = Ok (o', x') ->
  o = Returned c /\ o' = if c =? 1 then Exited 0 else Returned c.
Proof. exact (variables_verdict L a argv argv' its a1 c a2 o x o' x'). Qed.
Print Assumptions C74_refused.
(** In words: if only the variable of the option --n is consulted and set, it acts as --n=v at
    the end of the line. *)
Theorem C74_one_variable `(L : Libc) a argv t T k its a1 i d n v :
  fresh a -> reached a argv t T k false its -> perform a its = Ok (0, a1) ->
  env_items a1 = [Call t i (Some v)] ->
  T !! i = Some d -> first (long_named n) T i -> ~ flag_option d ->
  "="%char ∉ n -> (length n <= 63)%nat ->
  forall a', argus_parse a argv = Ok (Returned 0, a') <->
    argus_parse (H := unset L) a (argv ++ [$"--" ++ n ++ "="%char :: v]) = Ok (Returned 0, a').
Proof. exact (variable_as_word L a argv t T k its a1 i d n v). Qed.
Print Assumptions C74_one_variable.

(** APP_PASSWORD and APP_COLOR_MODE are set. *)
Definition few : list cstr := [$"-u"; $"me"; $"f"].
Definition more : list cstr := few ++ [$"--password=secret"; $"--color-mode=Yes"].
Example C74_example : exists a',
  argus_parse (H := env1) rules_ctx few = Ok (Returned 0, a') /\
  argus_parse (H := unset env1) rules_ctx more = Ok (Returned 0, a').
Proof.
  exists (ran env1 rules_ctx few).
  assert (E : argus_parse (H := env1) rules_ctx few = Ok (Returned 0, ran env1 rules_ctx few))
    by (vm_compute; reflexivity).
  split; [exact E|].
  assert (P : perform (H := env1) rules_ctx (plan_of rules_ctx few) = Ok (0, mid env1 rules_ctx few))
    by (vm_compute; reflexivity).
  assert (R : reads (decls rules_ctx) (a_root rules_ctx) 0 false more
    (plan_of rules_ctx few ++ env_items (H := env1) (mid env1 rules_ctx few))).
  { replace (plan_of rules_ctx few ++ env_items (H := env1) (mid env1 rules_ctx few)) with (plan_of rules_ctx more)
      by (vm_compute; reflexivity).
    exact (plan_reads_of _ _ rules_fresh). }
  exact (proj1 (C74_as_words env1 rules_ctx few more (plan_of rules_ctx few) (mid env1 rules_ctx few) rules_fresh
    (plan_reads_of _ _ rules_fresh) P R _) E).
Qed.
(** Only APP_PASSWORD is set. *)
Definition env_password : Libc := libc_env [($"APP_PASSWORD", $"secret")].
Definition named_line : list cstr := [$"--user"; $"me"] ++ [$"f"].
Definition rules_decls : list decl := map decl_of (default [] (ex_rules !! 0%nat)).
Example C74_one_example : exists a',
  argus_parse (H := env_password) rules_ctx named_line = Ok (Returned 0, a') /\
  argus_parse (H := unset env_password) rules_ctx (named_line ++ [$"--password=secret"]) = Ok (Returned 0, a').
Proof.
  exists (ran env_password rules_ctx named_line).
  assert (E : argus_parse (H := env_password) rules_ctx named_line = Ok (Returned 0, ran env_password rules_ctx named_line))
    by (vm_compute; reflexivity).
  split; [exact E|].
  set (its := [Call 0 1 (Some ($"me"))] ++ [Call 0 13 (Some ($"f"))]).
  assert (P : perform (H := env_password) rules_ctx its = Ok (0, mid env_password rules_ctx named_line))
    by (vm_compute; reflexivity).
  assert (R : reached rules_ctx named_line 0 rules_decls 1 false its).
  { destruct rules_fresh as [_ _ FR FS _ _]. constructor; [exact FS|exact FR|reflexivity|].
    eapply leads_trans.
    - eapply (leads_long _ 0 rules_decls 0 ($"user")); [reflexivity|apply (bool_decide_eq_false_1 _); reflexivity|
        discriminate|vm_compute; reflexivity|reflexivity|discriminate].
    - eapply leads_word; [reflexivity|discriminate|vm_compute; reflexivity|vm_compute; reflexivity]. }
  assert (X : env_items (H := env_password) (mid env_password rules_ctx named_line) = [Call 0 2 (Some ($"secret"))])
    by (vm_compute; reflexivity).
  refine (proj1 (C74_one_variable env_password rules_ctx named_line 0 rules_decls 1 its _ 2 _ ($"password") ($"secret")
    rules_fresh R P X eq_refl _ _ _ _ _) E).
  - apply dlong_Some. vm_compute. reflexivity.
  - discriminate.
  - apply (bool_decide_eq_false_1 _). reflexivity.
  - apply Nat.leb_le. reflexivity.
Qed.
(** An option that ends the program, with a variable of its own; and a word that is no boolean. *)
Definition leaving : list (list opt) :=
  [[HELP_OPTION; OPTION_BOOL "q" (Some ($"quit")) [hlp; FLAGS (N.lor FLAG_EXIT FLAG_AUTO_ENV)];
    OPTION_BOOL "c" (Some ($"color")) [hlp; FLAGS FLAG_AUTO_ENV]]].
Definition leaving_ctx : argus := make_argus leaving 0 None.
Definition env_quit : Libc := libc_env [($"QUIT", $"1")].
Definition env_color : Libc := libc_env [($"COLOR", $"7")].
Definition mid_env (L : Libc) (a : argus) : argus :=
  match perform (H := L) a (env_items (H := L) a) with Ok (_, a') => a' | UB _ => a end.
Lemma leaving_fresh : fresh leaving_ctx.
Proof. apply freshb_ok. vm_compute. reflexivity. Qed.
Example C74_refused_example :
  (exists a2, perform (H := env_quit) leaving_ctx (env_items (H := env_quit) leaving_ctx) = Ok (1, a2)) /\
  (exists x x', argus_parse (H := env_quit) leaving_ctx [] = Ok (Returned 1, x) /\
    argus_parse (H := unset env_quit) leaving_ctx [$"--quit=1"] = Ok (Exited 0, x')) /\
  (exists x x', argus_parse (H := env_color) leaving_ctx [] = Ok (Returned 12, x) /\
    argus_parse (H := unset env_color) leaving_ctx [$"--color=7"] = Ok (Returned 12, x')).
Proof.
  split; [exists (mid_env env_quit leaving_ctx); vm_compute; reflexivity|]. split.
  - exists (ran env_quit leaving_ctx []), (ran (unset env_quit) leaving_ctx [$"--quit=1"]).
    split; vm_compute; reflexivity.
  - exists (ran env_color leaving_ctx []), (ran (unset env_color) leaving_ctx [$"--color=7"]).
    split; vm_compute; reflexivity.
Qed.
