(** * Properties C39-C43, C51, C52: the structure check *)
From Verif Require GrammarFacts GrammarLemmas.
From Verif Require Import Validate Api LibProofs SpecGrammar GrammarProofs GrammarLemmas SpecAfter WholeProofs
  SpecStructure StructProofs LookupProofs MoreFacts ExLib ExGrammar ExAfter ExStructure.

(** ** C39 *)
Theorem C39_names `{Libc} a t T :
  accepted a -> reachable (decls a) (a_root a) t -> decls a !! t = Some T -> well_named T.
Proof. exact (accepted_names a t T). Qed.
Print Assumptions C39_names.
(** Every declared option is the one that its short and long names denote. *)
Theorem C39_long_name_denotes `{Libc} a t T i d n :
  accepted a -> reachable (decls a) (a_root a) t -> decls a !! t = Some T ->
  T !! i = Some d -> d_type d = TOption -> d_lname d = Some n -> first (long_named n) T i.
Proof. intros. eapply long_denotes; eauto using accepted_names. Qed.
Print Assumptions C39_long_name_denotes.
Theorem C39_short_name_denotes `{Libc} a t T i d :
  accepted a -> reachable (decls a) (a_root a) t -> decls a !! t = Some T ->
  T !! i = Some d -> d_type d = TOption -> d_sname d <> Ascii.zero ->
  first (short_named (d_sname d)) T i.
Proof. intros. eapply short_denotes; eauto using accepted_names. Qed.
Print Assumptions C39_short_name_denotes.
(** The check of names refuses nothing else. *)
Theorem C39_names_exact T : validate_naming T = 0 <-> well_named (map decl_of T).
Proof. exact (naming_spec T). Qed.
Print Assumptions C39_names_exact.

Example C39_example : exists T d, accepted (H := libc0) ex_tree_ctx /\
  reachable (decls ex_tree_ctx) (a_root ex_tree_ctx) 1 /\ decls ex_tree_ctx !! 1%nat = Some T /\
  T !! 1%nat = Some d /\ d_sname d = "o"%char /\ d_lname d = Some ($"output") /\
  first (long_named ($"output")) T 1 /\ first (short_named "o") T 1.
Proof.
  assert (Hr : reachable (decls ex_tree_ctx) (a_root ex_tree_ctx) 1) by (apply tree_strays; by eexists).
  pose proof tree_accepted as Ha.
  exists (default [] (decls ex_tree_ctx !! 1%nat)).
  exists (decl_of (OPTION_STRING "o" (Some ($"output")) [hlp])). split_and!; try done.
  - eapply (C39_long_name_denotes (H := libc0) _ 1); try done.
  - eapply (C39_short_name_denotes (H := libc0) _ 1 _ _ (decl_of (OPTION_STRING "o" (Some ($"output")) [hlp]))); done.
Qed.
(** Two entries with the same short name are refused. *)
Example C39_rejected : exists d, argus_init (H := libc0) 3
  [[HELP_OPTION; OPTION_FLAG "a" (Some ($"x")) [hlp]; OPTION_FLAG "a" (Some ($"y")) [hlp]]] 0 0 = Ok (None, d).
Proof. eexists. vm_compute. reflexivity. Qed.

(** Names shared with an earlier positional are not noticed: here [-o opt] is accepted and stored,
    but asking for "output" finds the positional. *)
Theorem C39_keys_unique_refuted :
  exists a argv a' p q, accepted (H := libc0) a /\
    argus_parse (H := libc0) a argv = Ok (Returned 0, a') /\
    entry a' 0 1 p /\ entry a' 0 2 q /\
    d_type (decl_of p) = TPositional /\ d_type (decl_of q) = TOption /\
    d_name (decl_of p) = Some ($"output") /\ d_name (decl_of q) = Some ($"output") /\
    d_lname (decl_of q) = Some ($"output") /\ is_set q = true /\
    deref_str (value p) (a_heap a') = Ok ($"pos") /\ deref_str (value q) (a_heap a') = Ok ($"opt") /\
    exists a2, argus_get a' (Some ($"output")) = Ok (value p, a2).
Proof.
  exists (make_argus ex_shadow 0 None), [$"-o"; $"opt"; $"pos"].
  exists (ran libc0 (make_argus ex_shadow 0 None) [$"-o"; $"opt"; $"pos"]).
  exists (opt_at (ran libc0 (make_argus ex_shadow 0 None) [$"-o"; $"opt"; $"pos"]) 0 1).
  exists (opt_at (ran libc0 (make_argus ex_shadow 0 None) [$"-o"; $"opt"; $"pos"]) 0 2).
  split; [exists 3%nat, ex_shadow, 0%nat, None; split; [vm_compute; reflexivity|done]|].
  split; [vm_compute; reflexivity|]. split; [eexists; split; vm_compute; reflexivity|].
  split; [eexists; split; vm_compute; reflexivity|]. vm_compute. split_and!; try done. by eexists.
Qed.
Print Assumptions C39_keys_unique_refuted.

(** ** C40 *)
Theorem C40_placement `{Libc} a t T :
  accepted a -> reachable (decls a) (a_root a) t -> decls a !! t = Some T -> well_placed T.
Proof. exact (accepted_placement a t T). Qed.
Print Assumptions C40_placement.
Theorem C40_placement_exact T : validate_placement T = 0 <-> well_placed (map decl_of T).
Proof. exact (placement_spec T). Qed.
Print Assumptions C40_placement_exact.
(** The table with a required positional, another one and a variadic one is well placed. *)
Example C40_example : exists T, decls ex_flat_ctx !! 0%nat = Some T /\ well_placed T /\
  (exists d, T !! 6%nat = Some d /\ positional d /\ required d /\ ~ variadic d) /\
  (exists d, T !! 8%nat = Some d /\ positional d /\ required d /\ variadic d).
Proof.
  exists (default [] (decls ex_flat_ctx !! 0%nat)). split; [done|]. split.
  { eapply (C40_placement (H := libc0) ex_flat_ctx 0); [exact flat_accepted|by left|done]. }
  split; eexists; (split; [reflexivity|]; split_and!; try done).
  - intros [E|[E|E]]; vm_compute in E; done.
  - left. done.
Qed.
Example C40_rejected : exists d,
  argus_init (H := libc0) 3 [[HELP_OPTION; POSITIONAL_INT ($"n") [hlp; FLAGS FLAG_OPTIONAL];
     POSITIONAL_INT ($"m") [hlp]]] 0 0 = Ok (None, d).
Proof. eexists. vm_compute. reflexivity. Qed.
(** Optional variadic positionals are not looked at: two of them are accepted, and the second can
    never receive anything. *)
Theorem C40_optional_variadic_refuted :
  exists a T d e, accepted (H := libc0) a /\ decls a !! a_root a = Some T /\
    T !! 1%nat = Some d /\ T !! 2%nat = Some e /\ positional d /\ variadic d /\ positional e /\ variadic e /\
    forall k, ~ receives T k 2.
Proof.
  exists (make_argus ex_many 0 None). eexists. eexists. eexists.
  split; [exists 3%nat, ex_many, 0%nat, None; split; [vm_compute; reflexivity|done]|].
  split; [reflexivity|]. split; [reflexivity|]. split; [reflexivity|]. split; [done|].
  assert (Hv : variadic (decl_of (POSITIONAL_MANY_STRING ($"files") [hlp; FLAGS FLAG_OPTIONAL]))) by (left; done).
  split; [exact Hv|]. split; [done|]. split; [right; left; done|].
  intros k (d & _ & _ & Hn & _). eapply (Hn 1%nat); [auto|reflexivity|done|exact Hv].
Qed.
Print Assumptions C40_optional_variadic_refuted.
(** A required variadic positional beside a subcommand is accepted: only required positionals that
    take one value count. *)
Theorem C40_mixed_refuted :
  exists a T d e, accepted (H := libc0) a /\ decls a !! a_root a = Some T /\ d ∈ T /\ e ∈ T /\
    positional d /\ required d /\ d_type e = TSubcommand.
Proof.
  exists (make_argus ex_mixed 0 None). eexists.
  exists (decl_of (POSITIONAL_MANY_STRING ($"files") [hlp])).
  exists (decl_of (SUBCOMMAND (Some ($"run")) (Some 1%nat) [hlp])).
  split; [exists 3%nat, ex_mixed, 0%nat, None; split; [vm_compute; reflexivity|done]|].
  split; [reflexivity|]. split; [right; left|]. split; [right; right; left|]. done.
Qed.
Print Assumptions C40_mixed_refuted.

(** ** C41 *)
Theorem C41_entries `{Libc} a t T i d :
  accepted a -> reachable (decls a) (a_root a) t -> decls a !! t = Some T -> T !! i = Some d ->
  match d_type d with
  | TOption => option_ok T d
  | TPositional => positional_ok d
  | TSubcommand => subcommand_ok d /\ forall t', d_sub d = Some t' -> is_Some (decls a !! t')
  | TGroup => flags_among d [14%N]
  end.
Proof. exact (accepted_entries a t T i d). Qed.
Print Assumptions C41_entries.
(** Whatever the arguments and the environment, only entries with a handler are called. *)
Theorem C41_handlers `{Libc} a argv its t i v :
  accepted a -> no_strays (decls a) (a_root a) ->
  reads (decls a) (a_root a) 0 false argv its \/ assigned a argv its ->
  Call t i v ∈ its -> exists T d f, decls a !! t = Some T /\ T !! i = Some d /\ d_handler d = Some f.
Proof. exact (accepted_handlers a argv its t i v). Qed.
Print Assumptions C41_handlers.
(** In particular parse_args does nothing but calls of that kind and entering of commands, up to the first refusal. *)
Theorem C41_run `{Libc} a argv : accepted a -> no_strays (decls a) (a_root a) ->
  exists its, parse_args a (Some (a_root a)) 0 false argv = perform a its /\
    forall t i v, Call t i v ∈ its -> exists T d f, decls a !! t = Some T /\ T !! i = Some d /\ d_handler d = Some f.
Proof.
  intros Ha Hns. destruct (accepted_ready a Ha Hns) as [_ _ HR HS _ _].
  destruct (GrammarFacts.reads_exists_unique (decls a) (a_root a) 0 false argv HS HR) as (its & Hr & _).
  exists its. split; [exact (GrammarLemmas.argus_parse_perform a argv its HS HR Hr)|].
  intros t i v. exact (accepted_handlers a argv its t i v Ha Hns (or_introl Hr)).
Qed.
Print Assumptions C41_run.
Example C41_run_example :
  exists its, parse_args (H := libc0) rules_ctx (Some 0%nat) 0 false line1 = perform (H := libc0) rules_ctx its /\
    forall t i v, Call t i v ∈ its -> exists T d f, decls rules_ctx !! t = Some T /\ T !! i = Some d /\ d_handler d = Some f.
Proof. exact (C41_run (H := libc0) rules_ctx line1 rules_accept rules_strays). Qed.
(** An accepted context has everything the theorems about parsing ask for. *)
Theorem C41_ready `{Libc} a : accepted a -> no_strays (decls a) (a_root a) -> fresh a.
Proof. exact (accepted_ready a). Qed.
Print Assumptions C41_ready.

Example C41_example : accepted (H := libc0) rules_ctx /\ fresh rules_ctx /\
  (exists T d, decls rules_ctx !! 0%nat = Some T /\ T !! 1%nat = Some d /\ d_require d = Some [$"password"] /\
     exists e, e ∈ T /\ d_name e = Some ($"password")) /\
  exists v, Call 0 11 v ∈ all_items env1 rules_ctx line1 /\
   assigned (H := env1) rules_ctx line1 (all_items env1 rules_ctx line1).
Proof.
  split; [exact rules_accept|]. split; [exact (C41_ready _ rules_accept rules_strays)|]. split.
  - exists (default [] (decls rules_ctx !! 0%nat)).
    exists (decl_of (OPTION_STRING "u" (Some ($"user")) [hlp; REQUIRE [$"password"]])).
    split_and!; try done.
    assert (Ho : option_ok (default [] (decls rules_ctx !! 0%nat))
       (decl_of (OPTION_STRING "u" (Some ($"user")) [hlp; REQUIRE [$"password"]]))).
    { exact (C41_entries (H := libc0) rules_ctx 0 _ 1 _ rules_accept (or_introl eq_refl) eq_refl eq_refl). }
    apply (op_known _ _ Ho). left. left.
  - eexists. split; [vm_compute; do 6 right; left|]. apply all_assigned; [exact rules_fresh|].
    vm_compute. reflexivity.
Qed.
Example C41_rejected : exists d, argus_init (H := libc0) 3
  [[HELP_OPTION; OPTION_FLAG "a" (Some ($"x")) [hlp; REQUIRE [$"nothing"]]]] 0 0 = Ok (None, d).
Proof. eexists. vm_compute. reflexivity. Qed.

(** ** C42 *)
Theorem C42_selection_fits `{Libc} a argv its1 t i its2 a1 :
  accepted a -> no_strays (decls a) (a_root a) ->
  reads (decls a) (a_root a) 0 false argv (its1 ++ Enter t i :: its2) ->
  perform a its1 = Ok (0, a1) -> exists a2, select a1 t i = Ok a2.
Proof. exact (accepted_select a argv its1 t i its2 a1). Qed.
Print Assumptions C42_selection_fits.
Theorem C42_at_most_8 `{Libc} a argv its :
  accepted a -> no_strays (decls a) (a_root a) ->
  reads (decls a) (a_root a) 0 false argv its -> (length (entered its) <= 8)%nat.
Proof. exact (accepted_entered a argv its). Qed.
Print Assumptions C42_at_most_8.
Theorem C42_stack `{Libc} a argv a' :
  accepted a -> no_strays (decls a) (a_root a) ->
  argus_parse a argv = Ok (Returned 0, a') -> (length (a_stack a') <= 8)%nat.
Proof. exact (accepted_stack a argv a'). Qed.
Print Assumptions C42_stack.
(** Eight nested subcommands are accepted and can all be selected; nine are refused. *)
Example C42_example :
  accepted (H := libc0) (tower_ctx 8) /\
  argus_parse (H := libc0) (tower_ctx 8) (replicate 8 ($"s")) =
    Ok (Returned 0, ran libc0 (tower_ctx 8) (replicate 8 ($"s"))) /\
  length (a_stack (ran libc0 (tower_ctx 8) (replicate 8 ($"s")))) = 8%nat /\
  argus_init (H := libc0) 10 (tower 9) 0 0 = Ok (None, O).
Proof. split; [exact tower_accepted|]. split_and!; vm_compute; reflexivity. Qed.
(** Without the structure check the stack is written out of bounds. *)
Theorem C42_unchecked_refuted :
  exists argv, argus_parse (H := libc0) (tower_ctx 9) argv = UB OutOfBounds.
Proof. exists (replicate 9 ($"s")). vm_compute. reflexivity. Qed.
Print Assumptions C42_unchecked_refuted.
(** A second parse continues with the stack of the first: nine parses with an accepted
    context of depth 1 write out of bounds. *)
Theorem C42_repeated_refuted :
  exists a l, accepted (H := libc0) a /\ no_strays (decls a) (a_root a) /\
    (forall stk, chain (decls a) (a_root a) stk -> (length stk <= 1)%nat) /\
    parse_all (H := libc0) a l = UB OutOfBounds.
Proof.
  exists ex_tree_ctx, (replicate 9 [$"status"]). split; [exact tree_accepted|]. split; [exact tree_strays|].
  split; [|vm_compute; reflexivity].
  intros [|r [|r' stk]]; simpl; auto.
  intros (T & d & t' & _ & HT & Hd & _ & Ht & _ & T2 & d2 & t2 & Hr & HT2 & Hd2 & Hs2 & _). exfalso.
  injection HT as <-. destruct (snd r) as [|[|[|[|n]]]]; try done; injection Hd as <-; try done;
    injection Ht as <-; injection HT2 as <-; destruct (snd r') as [|[|[|n]]]; try done;
    injection Hd2 as <-; done.
Qed.
Print Assumptions C42_repeated_refuted.

(** ** C43 *)
Theorem C43_depth_restored `{Libc} fuel tabs root depth x depth' :
  argus_init fuel tabs root depth = Ok (x, depth') -> depth' = depth.
Proof. intros E. exact (proj1 (init_spec fuel tabs root depth x depth' E)). Qed.
Print Assumptions C43_depth_restored.
(** In a sequence of checks each has the result it would have alone. *)
Theorem C43_checks_independent `{Libc} fuel l xs depth' :
  init_all fuel l 0 = Ok (xs, depth') ->
  depth' = O /\ Forall2 (fun p x => argus_init fuel (fst p) (snd p) 0 = Ok (x, O)) l xs.
Proof. exact (init_all_spec fuel l xs 0 depth'). Qed.
Print Assumptions C43_checks_independent.
Example C43_example :
  init_all (H := libc0) 10 [(tower 9, O); (tower 8, O); (ex_tree, O); (tower 8, O)] 0 =
  Ok ([None; Some (tower_ctx 8); Some ex_tree_ctx; Some (tower_ctx 8)], O).
Proof. vm_compute. reflexivity. Qed.

(** ** C51 *)
Theorem C51_default_validated `{Libc} a t i o :
  accepted a -> reachable (decls a) (a_root a) t -> entry a t i o ->
  ~ group_entry o -> d_have_default (decl_of o) = true -> validated (a_heap a) o.
Proof. exact (accepted_default a t i o). Qed.
Print Assumptions C51_default_validated.
Example C51_example :
  accepted (H := libc0) (make_argus ex_good_default 0 None) /\
  (exists o, entry (make_argus ex_good_default 0 None) 0 1 o /\ d_have_default (decl_of o) = true /\
     validators (decl_of o) = [V_RANGE 1 10] /\ validated (a_heap (make_argus ex_good_default 0 None)) o) /\
  argus_init (H := libc0) 3 ex_bad_default 0 0 = Ok (None, O).
Proof.
  assert (Ha : accepted (H := libc0) (make_argus ex_good_default 0 None)).
  { exists 3%nat, ex_good_default, 0%nat, None. split; [vm_compute; reflexivity|done]. }
  split; [done|]. split; [|vm_compute; reflexivity].
  exists (opt_at (make_argus ex_good_default 0 None) 0 1).
  assert (He : entry (make_argus ex_good_default 0 None) 0 1 (opt_at (make_argus ex_good_default 0 None) 0 1))
    by (eexists; split; reflexivity).
  split_and!; try done. eapply (C51_default_validated (H := libc0)); [exact Ha|by left|exact He|done|done].
Qed.

(** ** C52 *)
Theorem C52_accepts_exactly `{Libc} tabs root a :
  (exists fuel, argus_init fuel tabs root 0 = Ok (Some a, O)) <->
  a = make_argus tabs root None /\ structure_ok a.
Proof. exact (init_accepts tabs root a). Qed.
Print Assumptions C52_accepts_exactly.
(** A description that leads down in a circle is never accepted. *)
Theorem C52_acyclic `{Libc} a : accepted a -> acyclic (decls a) (a_root a).
Proof. intros Ha. exact (accepted_acyclic a (proj1 (accepted_structure a Ha))). Qed.
Print Assumptions C52_acyclic.
Example C52_example : structure_ok (H := libc0) ex_tree_ctx /\
  (forall fuel a d, argus_init (H := libc0) fuel
     [[HELP_OPTION; SUBCOMMAND (Some ($"s")) (Some 0%nat) [hlp]]] 0 0 <> Ok (Some a, d)).
Proof.
  split; [exact (proj1 (accepted_structure (H := libc0) _ tree_accepted))|].
  intros fuel a d E. pose proof (init_spec (H := libc0) _ _ _ _ _ _ E) as [-> [?|[= ->]]]; [done|].
  eapply (C52_acyclic (H := libc0)).
  - eexists fuel, _, 0%nat, None. split; [exact E|reflexivity].
  - left. reflexivity.
  - apply wd_one. eexists _, 1%nat, _. split; [reflexivity|]. split; [reflexivity|]. split; reflexivity.
Qed.
