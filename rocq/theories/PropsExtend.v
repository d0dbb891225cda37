(** * Adding an entry to a description *)
From Verif Require Import Validate Api LibProofs FrameProofs SpecGrammar GrammarProofs GrammarLemmas SpecAfter
  SpecExtend ExtendProofs ExtendWhole ExLib ExGrammar ExAfter.

(** ** C77 *)

(** A line that asks for nothing unknown ends as before, in the same context but for the new entry,
    which is as it was declared: same status, values, messages, memory.  This includes lines that are
    refused for a value, by a variable or by the final checks, and exit options. *)
Theorem C77_added_entry `{Libc} a t x argv its o a' :
  subs_present (decls a) -> is_Some (decls a !! a_root a) -> newcomer a t x ->
  reads (decls a) (a_root a) 0 false argv its -> (forall c m, Reject c m ∉ its) ->
  argus_parse a argv = Ok (o, a') ->
  argus_parse (with_entry t x a) argv = Ok (o, with_entry t x a').
Proof. intros S R Hx. exact (extended t x a Hx argv its o a' S R). Qed.
Print Assumptions C77_added_entry.

(** In particular every line that was accepted still is. *)
Theorem C77_still_accepted `{Libc} a t x argv a' :
  subs_present (decls a) -> is_Some (decls a !! a_root a) -> newcomer a t x ->
  argus_parse a argv = Ok (Returned 0, a') ->
  argus_parse (with_entry t x a) argv = Ok (Returned 0, with_entry t x a').
Proof. exact (still_accepted a t x argv a'). Qed.
Print Assumptions C77_still_accepted.

Definition zone : opt := OPTION_STRING "z" (Some ($"zone")) [hlp; ENV_VAR ($"ZONE"); REQUIRE [$"user"]].
Lemma zone_new : newcomer (H := env1) rules_ctx 0 zone.
Proof.
  constructor; [by left|done|done|vm_compute; reflexivity|].
  assert (F : forallb (fun d => forallb (fun n => negb (bool_decide (d_name (decl_of zone) = Some n))) (default [] (d_require d)))
    (default [] (decls rules_ctx !! 0%nat)) = true) by (vm_compute; reflexivity).
  intros T d n HT Hd Hn. rewrite HT in F. cbn [default from_option id] in F.
  rewrite forallb_forall in F. apply elem_of_list_In, F in Hd. rewrite forallb_forall in Hd.
  apply elem_of_list_In, Hd, negb_true_iff, bool_decide_eq_false in Hn. done.
Qed.
Example C77_example :
  argus_parse (H := env1) (with_entry 0 zone rules_ctx) line1 = Ok (Returned 0, with_entry 0 zone (ran env1 rules_ctx line1)) /\
  argus_parse (H := env1) (with_entry 0 zone rules_ctx) ([$"--zone"; $"utc"] ++ line1) <> argus_parse (H := env1) rules_ctx ([$"--zone"; $"utc"] ++ line1).
Proof.
  split.
  - apply (C77_still_accepted (H := env1)); [|by eexists|exact zone_new|exact run1].
    apply subs_presentb_ok. vm_compute. reflexivity.
  - assert (E1 : match argus_parse (H := env1) (with_entry 0 zone rules_ctx) ([$"--zone"; $"utc"] ++ line1) with
      | Ok (Returned c, _) => c = 0 | _ => False end) by (vm_compute; reflexivity).
    assert (E2 : match argus_parse (H := env1) rules_ctx ([$"--zone"; $"utc"] ++ line1) with
      | Ok (Returned c, _) => c = 12 | _ => False end) by (vm_compute; reflexivity).
    intros E. rewrite E in E1. destruct (argus_parse _ _) as [[[c|c] b]|]; [congruence|done..].
Qed.

(** Subcommands are different, even at the end of the table and with a name of their own.  An
    abbreviation that was clear is refused, and a word that was a positional argument selects the new
    command.  All four descriptions pass the structure check. *)
Definition sub_table : list opt := [HELP_OPTION].
Definition old_sub : list (list opt) :=
  [[HELP_OPTION; SUBCOMMAND (Some ($"start")) (Some 1%nat) [hlp; ACTION 1]]; sub_table; sub_table].
Definition new_sub : opt := SUBCOMMAND (Some ($"stop")) (Some 2%nat) [hlp; ACTION 2].
Theorem C77_abbreviation_refuted :
  argus_init (H := libc0) 3 old_sub 0 0 = Ok (Some (make_argus old_sub 0 None), O) /\
  argus_init (H := libc0) 3 (a_tabs (with_entry 0 new_sub (make_argus old_sub 0 None))) 0 0 =
    Ok (Some (with_entry 0 new_sub (make_argus old_sub 0 None)), O) /\
  (exists b, argus_parse (H := libc0) (make_argus old_sub 0 None) [$"st"] = Ok (Returned 0, b)) /\
  exists b, argus_parse (H := libc0) (with_entry 0 new_sub (make_argus old_sub 0 None)) [$"st"] = Ok (Returned 20, b).
Proof.
  split; [vm_compute; reflexivity|]. split; [vm_compute; reflexivity|].
  split; eexists; vm_compute; reflexivity.
Qed.
Print Assumptions C77_abbreviation_refuted.
Definition old_word : list (list opt) := [[HELP_OPTION; POSITIONAL_STRING ($"file") [hlp; FLAGS FLAG_OPTIONAL]]; sub_table].
Definition new_word : opt := SUBCOMMAND (Some ($"stop")) (Some 1%nat) [hlp; ACTION 2].
Theorem C77_word_refuted :
  argus_init (H := libc0) 3 old_word 0 0 = Ok (Some (make_argus old_word 0 None), O) /\
  argus_init (H := libc0) 3 (a_tabs (with_entry 0 new_word (make_argus old_word 0 None))) 0 0 =
    Ok (Some (with_entry 0 new_word (make_argus old_word 0 None)), O) /\
  (exists b, argus_parse (H := libc0) (make_argus old_word 0 None) [$"stop"] = Ok (Returned 0, b) /\ a_stack b = []) /\
  exists b, argus_parse (H := libc0) (with_entry 0 new_word (make_argus old_word 0 None)) [$"stop"] = Ok (Returned 0, b) /\
    a_stack b = [(0, 2)]%nat.
Proof.
  split; [vm_compute; reflexivity|]. split; [vm_compute; reflexivity|].
  split; eexists; (split; [vm_compute; reflexivity|]); reflexivity.
Qed.
Print Assumptions C77_word_refuted.
(** A new optional positional for numbers takes over short options whose name is a digit. *)
Definition old_digit : list (list opt) := [[HELP_OPTION; OPTION_FLAG "5" (Some ($"five")) [hlp]]].
Definition new_number : opt := POSITIONAL_INT ($"level") [hlp; FLAGS FLAG_OPTIONAL].
Theorem C77_digit_refuted :
  argus_init (H := libc0) 3 old_digit 0 0 = Ok (Some (make_argus old_digit 0 None), O) /\
  argus_init (H := libc0) 3 (a_tabs (with_entry 0 new_number (make_argus old_digit 0 None))) 0 0 =
    Ok (Some (with_entry 0 new_number (make_argus old_digit 0 None)), O) /\
  (exists b o, argus_parse (H := libc0) (make_argus old_digit 0 None) [$"-5"] = Ok (Returned 0, b) /\
     get_option b 0 1 = Ok o /\ is_set o = true) /\
  exists b o, argus_parse (H := libc0) (with_entry 0 new_number (make_argus old_digit 0 None)) [$"-5"] = Ok (Returned 0, b) /\
     get_option b 0 1 = Ok o /\ is_set o = false.
Proof.
  split; [vm_compute; reflexivity|]. split; [vm_compute; reflexivity|].
  split; do 2 eexists; (split; [vm_compute; reflexivity|]); split; vm_compute; reflexivity.
Qed.
Print Assumptions C77_digit_refuted.
