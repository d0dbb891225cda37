(** * What a program may rely on when it reads an option: property C84 *)
From Verif Require Import Macros Validate Api SpecGrammar SpecAfter AfterFacts MoreFacts ExLib ExAfter RelyProofs.

(** After a successful parse, an option that counts as set holds a value that passes the validators
    declared for it, wherever it came from. *)
Theorem C84_range `{Libc} a argv a' p t i lo hi : fresh a -> argus_parse a argv = Ok (Returned 0, a') ->
  find_option_by_active_path a' p = Ok (Some (t, i)) -> declared_with a t i (V_RANGE lo hi) ->
  argus_is_set a' p = Ok true -> read_as a' p (fun x => exists n, as_int x = Ok n /\ lo <= n <= hi).
Proof. exact (rely_range a argv a' p t i lo hi). Qed.
Print Assumptions C84_range.
Theorem C84_length `{Libc} a argv a' p t i lo hi : fresh a -> argus_parse a argv = Ok (Returned 0, a') ->
  find_option_by_active_path a' p = Ok (Some (t, i)) -> declared_with a t i (V_LENGTH lo hi) ->
  argus_is_set a' p = Ok true ->
  read_as a' p (fun x => exists s, deref_str x (a_heap a') = Ok s /\ lo <= Z.of_nat (length s) <= hi).
Proof. exact (rely_length a argv a' p t i lo hi). Qed.
Print Assumptions C84_length.
Theorem C84_count `{Libc} a argv a' p t i lo hi : fresh a -> argus_parse a argv = Ok (Returned 0, a') ->
  find_option_by_active_path a' p = Ok (Some (t, i)) -> declared_with a t i (V_COUNT lo hi) ->
  argus_is_set a' p = Ok true -> exists n, argus_count a' p = Ok n /\ lo <= Z.of_nat n <= hi.
Proof. exact (rely_count a argv a' p t i lo hi). Qed.
Print Assumptions C84_count.
Theorem C84_string `{Libc} a argv a' p t i l : fresh a -> argus_parse a argv = Ok (Returned 0, a') ->
  find_option_by_active_path a' p = Ok (Some (t, i)) -> declared_with a t i (V_CHOICE_STR l) ->
  argus_is_set a' p = Ok true -> read_as a' p (fun x => exists s, deref_str x (a_heap a') = Ok s /\ s ∈ l).
Proof. exact (rely_string a argv a' p t i l). Qed.
Print Assumptions C84_string.
Theorem C84_int `{Libc} a argv a' p t i l : fresh a -> argus_parse a argv = Ok (Returned 0, a') ->
  find_option_by_active_path a' p = Ok (Some (t, i)) -> declared_with a t i (V_CHOICE_INT l) ->
  argus_is_set a' p = Ok true -> read_as a' p (fun x => exists n, as_int x = Ok n /\ n ∈ l).
Proof. exact (rely_int a argv a' p t i l). Qed.
Print Assumptions C84_int.
Theorem C84_float `{Libc} a argv a' p t i l : fresh a -> argus_parse a argv = Ok (Returned 0, a') ->
  find_option_by_active_path a' p = Ok (Some (t, i)) -> declared_with a t i (V_CHOICE_FLOAT l) ->
  argus_is_set a' p = Ok true -> read_as a' p (fun x => exists f c, as_float x = Ok f /\ c ∈ l /\ feq f c = true).
Proof. exact (rely_float a argv a' p t i l). Qed.
Print Assumptions C84_float.

(** One option for each validator, two of them below a command. *)
Definition ex_rely : list (list opt) :=
  [[HELP_OPTION;
    OPTION_INT "n" (Some ($"num")) [hlp; VALIDATOR [V_RANGE 1 10]];
    OPTION_STRING "w" (Some ($"word")) [hlp; VALIDATOR [V_LENGTH 2 4]; DEFAULT (DString ($"abc"))];
    OPTION_FLOAT "q" (Some ($"quality")) [hlp; VALIDATOR [V_CHOICE_FLOAT [4607182418800017408; 4612811918334230528]]];
    SUBCOMMAND (Some ($"run")) (Some 1%nat) [hlp; ACTION 1]];
   [HELP_OPTION;
    OPTION_ARRAY_STRING "t" (Some ($"tags")) [hlp; VALIDATOR [V_COUNT 1 3]];
    OPTION_STRING "m" (Some ($"mode")) [hlp; VALIDATOR [V_CHOICE_STR [$"fast"; $"slow"]]];
    OPTION_INT "k" (Some ($"kind")) [hlp; VALIDATOR [V_CHOICE_INT [2; 3; 5]]]]].
Definition rely_ctx : argus := make_argus ex_rely 0 None.
Definition rely_line : list cstr :=
  [$"-n7"; $"-q"; $"2.5"; $"run"; $"-t"; $"a,b"; $"--mode=slow"; $"-k"; $"3"].
Definition rely_end : argus := ran libc0 rely_ctx rely_line.
Example rely_fresh : fresh rely_ctx.
Proof. apply freshb_ok. vm_compute. reflexivity. Qed.
Example rely_run : argus_parse (H := libc0) rely_ctx rely_line = Ok (Returned 0, rely_end).
Proof. vm_compute. reflexivity. Qed.
Ltac declared := eexists _, _; split; [reflexivity|split; [reflexivity|split; [discriminate|apply elem_of_list_singleton; reflexivity]]].
Example C84_example :
  read_as rely_end (Some ($"num")) (fun x => exists n, as_int x = Ok n /\ 1 <= n <= 10) /\
  read_as rely_end (Some ($"word")) (fun x => exists s, deref_str x (a_heap rely_end) = Ok s /\ 2 <= Z.of_nat (length s) <= 4) /\
  (exists n, argus_count rely_end (Some ($"run.tags")) = Ok n /\ 1 <= Z.of_nat n <= 3) /\
  read_as rely_end (Some ($"mode")) (fun x => exists s, deref_str x (a_heap rely_end) = Ok s /\ s ∈ [$"fast"; $"slow"]) /\
  read_as rely_end (Some ($"run.kind")) (fun x => exists n, as_int x = Ok n /\ n ∈ [2; 3; 5]) /\
  read_as rely_end (Some ($".quality")) (fun x => exists f c, as_float x = Ok f /\
    c ∈ [4607182418800017408; 4612811918334230528] /\ feq f c = true).
Proof.
  split_and!.
  - apply (C84_range (H := libc0) rely_ctx rely_line rely_end (Some ($"num")) 0 1); [exact rely_fresh|exact rely_run|vm_compute; reflexivity|declared|vm_compute; reflexivity].
  - apply (C84_length (H := libc0) rely_ctx rely_line rely_end (Some ($"word")) 0 2); [exact rely_fresh|exact rely_run|vm_compute; reflexivity|declared|vm_compute; reflexivity].
  - apply (C84_count (H := libc0) rely_ctx rely_line rely_end (Some ($"run.tags")) 1 1); [exact rely_fresh|exact rely_run|vm_compute; reflexivity|declared|vm_compute; reflexivity].
  - apply (C84_string (H := libc0) rely_ctx rely_line rely_end (Some ($"mode")) 1 2); [exact rely_fresh|exact rely_run|vm_compute; reflexivity|declared|vm_compute; reflexivity].
  - apply (C84_int (H := libc0) rely_ctx rely_line rely_end (Some ($"run.kind")) 1 3); [exact rely_fresh|exact rely_run|vm_compute; reflexivity|declared|vm_compute; reflexivity].
  - apply (C84_float (H := libc0) rely_ctx rely_line rely_end (Some ($".quality")) 0 3); [exact rely_fresh|exact rely_run|vm_compute; reflexivity|declared|vm_compute; reflexivity].
Qed.
