(** * Concrete tables and runs for the examples of PropsAfter.v *)
From Verif Require Import Validate Api LibProofs FrameProofs SpecGrammar GrammarProofs GrammarLemmas
  ActiveProofs SpecAfter AfterProofs EnvProofs CallProofs WholeProofs SpecValues ValueProofs AfterFacts
  LookupProofs MoreFacts CheckFacts ExLib ExGrammar.

(** Options with rules. *)
Definition ex_rules : list (list opt) :=
  [[HELP_OPTION;                                                            (* 0 *)
    OPTION_STRING "u" (Some ($"user")) [hlp; REQUIRE [$"password"]];        (* 1 *)
    OPTION_STRING "p" (Some ($"password")) [hlp; ENV_VAR ($"PASSWORD")];    (* 2 *)
    GROUP_START ($"speed") [FLAGS FLAG_EXCLUSIVE];                          (* 3 *)
    OPTION_FLAG "f" (Some ($"fast")) [hlp];                                 (* 4 *)
    OPTION_FLAG "s" (Some ($"slow")) [hlp];                                 (* 5 *)
    GROUP_END;                                                              (* 6 *)
    OPTION_FLAG "a" (Some ($"all")) [hlp; CONFLICT [$"list"]];              (* 7 *)
    OPTION_FLAG "l" (Some ($"list")) [hlp];                                 (* 8 *)
    OPTION_INT "n" (Some ($"num")) [hlp; VALIDATOR [V_RANGE 1 10]];         (* 9 *)
    OPTION_INT "d" (Some ($"depth")) [hlp; DEFAULT (DInt 5); ENV_VAR ($"DEPTH")]; (* 10 *)
    OPTION_BOOL "c" (Some ($"color-mode")) [hlp; FLAGS FLAG_AUTO_ENV];      (* 11 *)
    OPTION_STRING "r" (Some ($"re")) [hlp; VALIDATOR [V_REGEX (Some ($"ab")) (Some ($"hint"))]]; (* 12 *)
    POSITIONAL_STRING ($"file") [hlp]]].                                    (* 13 *)
Definition rules_ctx : argus := make_argus ex_rules 0 (Some ($"APP")).
Definition env1 : Libc :=
  libc_env [($"APP_PASSWORD", $"secret"); ($"APP_DEPTH", $"9"); ($"APP_COLOR_MODE", $"Yes")].

Definition ran (lib : Libc) (a : argus) (argv : list cstr) : argus :=
  match argus_parse (H := lib) a argv with Ok (_, a') => a' | UB _ => a end.
Definition plan_of (a : argus) (argv : list cstr) : list item := plan (decls a) (a_root a) 0 false argv.
Definition mid (lib : Libc) (a : argus) (argv : list cstr) : argus :=
  match perform (H := lib) a (plan_of a argv) with Ok (_, a') => a' | UB _ => a end.
Definition all_items (lib : Libc) (a : argus) (argv : list cstr) : list item :=
  plan_of a argv ++ env_items (H := lib) (mid lib a argv).
Definition checked (lib : Libc) (a : argus) (argv : list cstr) : argus :=
  match perform (H := lib) a (all_items lib a argv) with Ok (_, a') => a' | UB _ => a end.

Lemma rules_fresh : fresh rules_ctx.
Proof. apply freshb_ok. vm_compute. reflexivity. Qed.
Lemma flat_fresh : fresh ex_flat_ctx.
Proof. apply freshb_ok. vm_compute. reflexivity. Qed.
Lemma tree_fresh : fresh ex_tree_ctx.
Proof. apply freshb_ok. vm_compute. reflexivity. Qed.
Lemma plan_reads_of a argv : fresh a -> reads (decls a) (a_root a) 0 false argv (plan_of a argv).
Proof. intros []. by apply plan_reads. Qed.
Lemma all_assigned (lib : Libc) a argv : fresh a ->
  perform (H := lib) a (plan_of a argv) = Ok (0, mid lib a argv) ->
  assigned (H := lib) a argv (all_items lib a argv).
Proof. intros Hf Hp. exists (plan_of a argv), (mid lib a argv). split; [by apply plan_reads_of|done]. Qed.
Lemma failing_check (lib : Libc) a argv c : fresh a ->
  perform (H := lib) a (plan_of a argv) = Ok (0, mid lib a argv) ->
  perform (H := lib) a (all_items lib a argv) = Ok (0, checked lib a argv) ->
  argus_parse (H := lib) a argv = Ok (Returned c, ran lib a argv) -> c <> 0 ->
  first_problem (checked lib a argv) c.
Proof.
  intros Hf Hp Hall E Hc. pose proof Hf as [Hst Herr HR HS Hac Hnm].
  pose proof (plan_reads_of a argv Hf) as Hr.
  destruct (parsed_stack (H := lib) a argv _ 0 _ HS HR Hac Hst Hr Hp) as (_ & _ & _ & _ & _ & _ & Q7).
  unfold all_items in Hall at 1. rewrite perform_app, Hp in Hall by done. cbn [rbind] in Hall.
  change (0 =? 0) with true in Hall. cbv iota in Hall.
  apply parse_ends in E as (its & Hr' & D); [|done].
  assert (its = plan_of a argv) as -> by (by eapply reads_unique).
  rewrite Hp in D.
  destruct D as [(a0 & [=] & _)|[(c0 & a0 & ? & _ & [= <- <-] & _)|
    [(a0 & c0 & a3 & a4 & [= <-] & ? & E3 & _)|[(a0 & c0 & a3 & ev & [= <-] & E3 & _ & Hfp & [= ->] & _)|
     (a0 & [= <-] & He & [= ->] & Hio)]]]]; try done.
  - rewrite E3 in Hall. injection Hall as -> _. done.
  - rewrite E3 in Hall. injection Hall as ->. done.
Qed.

(** A run that succeeds. *)
Definition line1 : list cstr := [$"-u"; $"me"; $"-p"; $"x"; $"--fast"; $"-n"; $"7"; $"-n"; $"3"; $"f.txt"].
Lemma run1 : argus_parse (H := env1) rules_ctx line1 = Ok (Returned 0, ran env1 rules_ctx line1).
Proof. vm_compute. reflexivity. Qed.
Lemma assigned1 : assigned (H := env1) rules_ctx line1
  [Call 0 1 (Some ($"me")); Call 0 2 (Some ($"x")); Call 0 4 None; Call 0 9 (Some ($"7")); Call 0 9 (Some ($"3"));
   Call 0 13 (Some ($"f.txt")); Call 0 11 (Some ($"Yes"))].
Proof.
  replace [Call 0 1 (Some ($"me")); Call 0 2 (Some ($"x")); Call 0 4 None; Call 0 9 (Some ($"7"));
    Call 0 9 (Some ($"3")); Call 0 13 (Some ($"f.txt")); Call 0 11 (Some ($"Yes"))]
    with (all_items env1 rules_ctx line1) by (vm_compute; reflexivity).
  apply all_assigned; [exact rules_fresh|]. vm_compute. reflexivity.
Qed.
Lemma entry_at a t i T o : a_tabs a !! t = Some T -> T !! i = Some o -> entry a t i o.
Proof. intros ? ?. by exists T. Qed.
Definition opt_at (a : argus) (t i : nat) : opt :=
  match a_tabs a !! t with Some T => default GROUP_END (T !! i) | None => GROUP_END end.
Lemma opt_at_entry a t i : (i < length (default [] (a_tabs a !! t)))%nat -> entry a t i (opt_at a t i).
Proof.
  unfold opt_at, entry. destruct (a_tabs a !! t) as [T|]; simpl; [|lia].
  intros Hi. destruct (lookup_lt_is_Some_2 T i Hi) as [o Ho]. exists T. rewrite Ho. done.
Qed.
Ltac at_entry := apply opt_at_entry; vm_compute; lia.
Ltac untouched := intros ? Hx; repeat (apply elem_of_cons in Hx as [->|Hx];
  [intros [[? [=]]|[=]]|]); by apply elem_of_nil in Hx.
