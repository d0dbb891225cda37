(** * Values given again: more on the properties C12 and C49 *)
From Verif Require Import Validate Api LibProofs SpecGrammar GrammarProofs SpecAfter AfterFacts SpecValues
  SpecRepeat RepeatProofs ExLib ExGrammar MoreFacts ExAfter.

(** ** C12 *)

(** A value that is followed by another one for the same option can be left out: the parse succeeds
    with exactly the same context. *)
Theorem C12_left_out `{L : Libc} a argv argv' its1 t i v its2 w its3 a' : fresh a ->
  reads (decls a) (a_root a) 0 false argv (its1 ++ Call t i v :: its2 ++ Call t i w :: its3) ->
  reads (decls a) (a_root a) 0 false argv' (its1 ++ its2 ++ Call t i w :: its3) ->
  plain_entry (decls a) t i -> (forall t' i', Enter t' i' ∉ its2) ->
  argus_parse a argv = Ok (Returned 0, a') -> argus_parse a argv' = Ok (Returned 0, a').
Proof. exact (left_out a argv argv' its1 t i v its2 w its3 a'). Qed.
Print Assumptions C12_left_out.
Example C12_left_out_example :
  let a' := ran libc0 rules_ctx [$"-n"; $"7"; $"--fast"; $"-n"; $"3"; $"f"] in
  argus_parse (H := libc0) rules_ctx [$"-n"; $"7"; $"--fast"; $"-n"; $"3"; $"f"] = Ok (Returned 0, a') /\
  argus_parse (H := libc0) rules_ctx [$"--fast"; $"-n"; $"3"; $"f"] = Ok (Returned 0, a').
Proof.
  intros a'.
  assert (E : argus_parse (H := libc0) rules_ctx [$"-n"; $"7"; $"--fast"; $"-n"; $"3"; $"f"] = Ok (Returned 0, a'))
    by (vm_compute; reflexivity).
  split; [exact E|].
  refine (C12_left_out (L := libc0) rules_ctx [$"-n"; $"7"; $"--fast"; $"-n"; $"3"; $"f"] _
    [] 0 9 (Some ($"7")) [Call 0 4 None] (Some ($"3")) [Call 0 13 (Some ($"f"))] a' rules_fresh _ _ _ _ E).
  - exact (plan_reads_of rules_ctx _ rules_fresh).
  - exact (plan_reads_of rules_ctx _ rules_fresh).
  - eexists _, _, HInt. split; [reflexivity|]. split; [reflexivity|]. split; [reflexivity|]. unfold scalar. auto.
  - intros t' i' X. apply elem_of_list_singleton in X. discriminate X.
Qed.

(** ** C49 *)

(** Without argus_free in between: the same line again, if it asks only for single values and for no
    subcommand, and no variable is consulted and set, gives the same context again. *)
Theorem C49_same_line `{L : Libc} a argv its a1 a' : fresh a ->
  reads (decls a) (a_root a) 0 false argv its ->
  (forall x, x ∈ its -> exists t i v, x = Call t i v /\ plain_entry (decls a) t i) ->
  perform a its = Ok (0, a1) -> env_items a1 = [] ->
  argus_parse a argv = Ok (Returned 0, a') -> argus_parse a' argv = Ok (Returned 0, a').
Proof. exact (again a argv its a1 a'). Qed.
Print Assumptions C49_same_line.
(** A line of options, followed by a second parse: the same as one parse of both lines.  So what was
    set stays set, lists and maps go on growing. *)
Theorem C49_two_lines `{L : Libc} a argv1 argv2 its a0 a1 : fresh a ->
  leads (decls a) (a_root a) 0 false argv1 (a_root a) 0 false its ->
  perform a its = Ok (0, a0) -> env_items a0 = [] -> argus_parse a argv1 = Ok (Returned 0, a1) ->
  argus_parse a1 argv2 = argus_parse a (argv1 ++ argv2).
Proof. exact (successive a argv1 argv2 its a0 a1). Qed.
Print Assumptions C49_two_lines.
Definition once_line : list cstr := [$"--fast"; $"-n"; $"3"; $"f"].
Example C49_same_example :
  argus_parse (H := libc0) (ran libc0 rules_ctx once_line) once_line = Ok (Returned 0, ran libc0 rules_ctx once_line).
Proof.
  refine (C49_same_line (L := libc0) rules_ctx once_line (plan_of rules_ctx once_line) (mid libc0 rules_ctx once_line) _
    rules_fresh (plan_reads_of _ _ rules_fresh) _ _ _ _); [|vm_compute; reflexivity..].
  change (plan_of rules_ctx once_line) with [Call 0 4 None; Call 0 9 (Some ($"3")); Call 0 13 (Some ($"f"))].
  intros x X. repeat (apply elem_of_cons in X as [->|X]; [eexists _, _, _; split; [reflexivity|];
    eexists _, _, _; split; [reflexivity|]; split; [reflexivity|]; split; [reflexivity|]; unfold scalar; auto 6|]).
  by apply elem_of_nil in X.
Qed.
Definition growing_ctx : argus := make_argus [[HELP_OPTION; OPTION_ARRAY_INT "r" (Some ($"ranges")) [hlp]]] 0 None.
Lemma growing_fresh : fresh growing_ctx.
Proof. apply freshb_ok. vm_compute. reflexivity. Qed.
Example C49_two_example :
  let a1 := ran libc0 growing_ctx [$"--ranges"; $"1"] in
  argus_parse (H := libc0) a1 [$"-r"; $"2-3"] = argus_parse (H := libc0) growing_ctx [$"--ranges"; $"1"; $"-r"; $"2-3"] /\
  argus_count a1 (Some ($"ranges")) = Ok 1%nat /\
  argus_count (ran libc0 a1 [$"-r"; $"2-3"]) (Some ($"ranges")) = Ok 3%nat.
Proof.
  intros a1. split; [|split; vm_compute; reflexivity].
  refine (C49_two_lines (L := libc0) growing_ctx [$"--ranges"; $"1"] [$"-r"; $"2-3"] [Call 0 1 (Some ($"1"))]
    (mid libc0 growing_ctx [$"--ranges"; $"1"]) a1 growing_fresh _ _ _ _); [|vm_compute; reflexivity..].
  eapply (leads_long _ 0 _ 0 ($"ranges")); [reflexivity|apply (bool_decide_eq_false_1 _); reflexivity|
    discriminate|vm_compute; reflexivity|reflexivity|discriminate].
Qed.
