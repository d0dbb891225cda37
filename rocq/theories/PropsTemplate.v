(** * What the usage line promises: property C87 *)
From Coq Require Import Lia.
From Verif Require Import Macros Validate Api SpecGrammar SpecAfter AfterFacts MoreFacts Display ExLib ExDisplay
  ExAfter ExStructure PropsDisplay PropsStdout PropsAsked TemplateProofs GrammarLemmas.
From Verif Require Import SpecAfter.

(** Words written after a command are handed to the arguments of its usage line, one by one in the
    order shown; a variadic last argument takes the rest.  parse_args does just that. *)
Theorem C87_read `{Libc} a ws rs t T vs : fresh a -> leads_to (decls a) (a_root a) ws rs t -> a_tabs a !! t = Some T ->
  orderly T -> enough T (length vs) -> Forall (plain_word (map decl_of T)) vs ->
  exists r, parse_args a (Some (a_root a)) 0 false (ws ++ vs) =
      perform a (map (fun r => Enter (fst r) (snd r)) rs ++ handed t r 0 vs) /\
    reads (decls a) (a_root a) 0 false (ws ++ vs)
      (map (fun r => Enter (fst r) (snd r)) rs ++ handed t r 0 vs) /\
    forall k, (k < length vs)%nat -> exists o, T !! r k = Some o /\ argument_for T k = Some o.
Proof.
  intros Hf Hl HT Ho He Hp. destruct (template_read a ws rs t T vs Hl HT Ho He Hp) as (r & R & K).
  exists r. split; [|by split]. by apply argus_parse_perform; [apply Hf..|].
Qed.
Print Assumptions C87_read.
(** The usage line that the program can print then consists of the words typed up to the command and
    of those arguments. *)
Theorem C87_usage `{Libc} p a ws rs t T vs a' h : fresh a ->
  leads_to (decls a) (a_root a) ws rs t -> a_tabs a !! t = Some T ->
  orderly T -> enough T (length vs) -> Forall (plain_word (map decl_of T)) vs ->
  argus_parse a (ws ++ vs) = Ok (Returned 0, a') ->
  argus_print_usage p a' (Dst [] h) = Shown (tt, Dst (
    $"Usage: " ++ p_name p ++ path_words ws ++ $" [OPTIONS]" ++
    concat (map (fun o => " "%char :: argument_words (decl_of o) (default [] (d_name (decl_of o)))) (arguments T)) ++
    (if existsb (entry_is TSubcommand) T then $" COMMAND" else []) ++ [newline]) h).
Proof. exact (template_usage p a ws rs t T vs a' h). Qed.
Print Assumptions C87_usage.

(** `prog run x y z` under "Usage: prog run [OPTIONS] <what> [files...]" *)
Example C87_led : leads_to (decls ex_help_ctx) 0 [$"run"] [(0, 9)]%nat 1.
Proof.
  right. exists (decl_of (SUBCOMMAND (Some ($"run")) (Some 1%nat) [HELP ($"Run it"); ACTION 7])).
  apply (names_one _ 0%nat (default [] (decls ex_help_ctx !! 0%nat))); [reflexivity| |reflexivity].
  split; [reflexivity|]. split; [reflexivity|]. split; [reflexivity|]. split; [done|].
  intros j e r Hj He Ht. exfalso.
  do 9 (destruct j as [|j]; [vm_compute in He; injection He as <-; discriminate Ht|]). lia.
Qed.
Example C87_example :
  orderly T_run /\ enough T_run 3 /\ Forall (plain_word (map decl_of T_run)) [$"x"; $"y"; $"z"] /\
  (let a' := ran libc0 ex_help_ctx [$"run"; $"x"; $"y"; $"z"] in
   argus_parse (H := libc0) ex_help_ctx [$"run"; $"x"; $"y"; $"z"] = Ok (Returned 0, a') /\
   argus_count a' (Some ($"files")) = Ok 2%nat /\
   argus_print_usage ex_program a' (Dst [] heap0) =
     Shown (tt, Dst ($"Usage: prog run [OPTIONS] <what> [files...]" ++ [newline]) heap0)) /\
  option_map (fun o => d_name (decl_of o)) (argument_for T_run 2) = Some (Some ($"files")).
Proof.
  split.
  { intros i j o x Ho Hp Hv Hx Hpx.
    destruct i as [|[|[|i]]]; [| | |done]; vm_compute in Ho; injection Ho as <-; [done| |].
    - exfalso. destruct Hv as [V|[V|V]]; discriminate V.
    - destruct j as [|[|[|j]]]; [lia|lia|lia|done]. }
  split.
  { right. exists (default HELP_OPTION (last (arguments T_run))). split; [vm_compute; reflexivity|]. left. reflexivity. }
  split.
  { assert (W : forall w, (forall s, w <> "-"%char :: s) -> plain_word (map decl_of T_run) w).
    { intros w Hw. split; [exact Hw|]. intros d Hd [Ht _].
      apply elem_of_list_fmap in Hd as (o & -> & Ho). unfold T_run in Ho. vm_compute in Ho.
      repeat (apply elem_of_cons in Ho as [->|Ho]; [discriminate Ht|]). by apply elem_of_nil in Ho. }
    repeat constructor; by apply W. }
  split; [|vm_compute; reflexivity]. split; [vm_compute; reflexivity|]. split; vm_compute; reflexivity.
Qed.

(** The check of the description lets a variadic argument stand before others: the usage line then
    shows an argument that no word reaches. *)
Theorem C87_unreachable_refuted :
  argus_init (H := libc0) 5 ex_many 0 0 = Ok (Some (make_argus ex_many 0 None), O) /\
  let a' := ran libc0 (make_argus ex_many 0 None) [$"a"; $"1"] in
  argus_parse (H := libc0) (make_argus ex_many 0 None) [$"a"; $"1"] = Ok (Returned 0, a') /\
  argus_print_usage ex_program a' (Dst [] heap0) =
    Shown (tt, Dst ($"Usage: prog [OPTIONS] [files...] [nums...]" ++ [newline]) heap0) /\
  argus_count a' (Some ($"files")) = Ok 2%nat /\ argus_is_set a' (Some ($"nums")) = Ok false.
Proof. vm_compute. done. Qed.
Print Assumptions C87_unreachable_refuted.
