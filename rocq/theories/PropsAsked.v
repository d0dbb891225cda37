(** * Screens that the program asks for: property C83 *)
From Coq Require Import Lia.
From Verif Require Import Macros Validate Api LibProofs SpecGrammar GrammarProofs
  SpecStructure StructProofs SpecRequest SpecTrust SpecHelp Messages SpecTold SpecMessages Display Stdout SpecStdout
  StdoutProofs AskedProofs
  ExLib ExDisplay ExGrammar ExAfter ExStructure PropsDisplay PropsRequest PropsTrust PropsMessages PropsStdout MoreFacts.
From Verif Require Import SpecAfter.

(** ** C83 *)

(** After a successful parse argus_print_help shows the help of the command named last on the line,
    however options were set meanwhile, and releases what it allocates. *)
Theorem C83_help `{Libc, Printf} p a argv a' its cs t T out h :
  fresh a -> argus_parse a argv = Ok (Returned 0, a') ->
  reads (decls a) (a_root a) 0 false argv its -> called (decls a) its cs -> current (decls a) (a_root a) its t ->
  a_tabs a !! t = Some T -> printf_ok -> good_config (p_config p) ->
  showable_table (a_prefix a) T -> fitting_table (p_config p) (a_prefix a) T -> oom h = [] ->
  exists u h', argus_print_help p a' (Dst out h) = Shown (tt, Dst (out ++ u) h') /\ SpecHelp.released h h' /\
    help_screen p (a_prefix a) cs T u.
Proof. exact (asked_help p a argv a' its cs t T out h). Qed.
Print Assumptions C83_help.

(** argus_print_usage shows its usage line and needs no memory. *)
Theorem C83_usage `{Libc} p a argv a' its cs t T out h :
  fresh a -> argus_parse a argv = Ok (Returned 0, a') ->
  reads (decls a) (a_root a) 0 false argv its -> called (decls a) its cs -> current (decls a) (a_root a) its t ->
  a_tabs a !! t = Some T ->
  (forall x, x ∈ T -> d_type (decl_of x) = TPositional -> is_Some (d_name (decl_of x))) ->
  argus_print_usage p a' (Dst out h) = Shown (tt, Dst (out ++ usage_line p cs T) h).
Proof. exact (asked_usage p a argv a' its cs t T out h). Qed.
Print Assumptions C83_usage.

Theorem C83_version p out h : argus_print_version p (Dst out h) = Shown (tt, Dst (out ++ version_text p) h).
Proof. exact (asked_version p out h). Qed.
Print Assumptions C83_version.

(** "prog --port 81 run x y", and then the three screens *)
Definition asked_line : list cstr := [$"--port"; $"81"; $"run"; $"x"; $"y"].
Lemma help_fresh : fresh ex_help_ctx.
Proof. apply freshb_ok. vm_compute. reflexivity. Qed.
Lemma asked_plan : exists its, reads (decls ex_help_ctx) 0 0 false asked_line its /\
  called (decls ex_help_ctx) its [$"run"] /\ current (decls ex_help_ctx) 0 its 1.
Proof.
  exists (plan_of ex_help_ctx asked_line). split; [apply plan_reads_of, help_fresh|].
  assert (E : entered (plan_of ex_help_ctx asked_line) = [(0%nat, 9%nat)]) by (vm_compute; reflexivity).
  split.
  - unfold called. rewrite E. apply Forall2_cons. split; [|by apply Forall2_nil].
    exists T_help_decls. eexists. split; [vm_compute; reflexivity|]. split; vm_compute; reflexivity.
  - unfold current. rewrite E. exists T_help_decls. eexists. split; [vm_compute; reflexivity|]. split; vm_compute; reflexivity.
Qed.
Example C83_example : exists a' u h',
  argus_parse (H := libc0) ex_help_ctx asked_line = Ok (Returned 0, a') /\
  argus_print_usage ex_program a' (Dst [] heap0) =
    Shown (tt, Dst ($"Usage: prog run [OPTIONS] <what> [files...]" ++ [newline]) heap0) /\
  argus_print_help (H := libc0) (H0 := printf0) ex_program a' (Dst [] heap0) = Shown (tt, Dst u h') /\
  help_screen (H := libc0) (H0 := printf0) ex_program (Some ($"APP")) [$"run"] T_run u.
Proof.
  exists (parsed0 ex_help_ctx asked_line).
  assert (E : argus_parse (H := libc0) ex_help_ctx asked_line = Ok (Returned 0, parsed0 ex_help_ctx asked_line))
    by (vm_compute; reflexivity).
  destruct asked_plan as (its & R & Hc & Hcur).
  destruct (C83_help (H := libc0) (H0 := printf0) ex_program ex_help_ctx asked_line _ its [$"run"] 1 T_run [] heap0
    help_fresh E R Hc Hcur) as (u & h' & Hu & _ & Hs).
  - reflexivity.
  - apply printf0_ok.
  - split; [cbn; lia|reflexivity].
  - apply showable_tableb_ok. vm_compute. reflexivity.
  - apply fitting_tableb_ok. vm_compute. reflexivity.
  - reflexivity.
  - exists u, h'. split; [exact E|]. split; [|split; [exact Hu|exact Hs]].
    rewrite (C83_usage (H := libc0) ex_program ex_help_ctx asked_line _ its [$"run"] 1 T_run [] heap0 help_fresh E R Hc Hcur).
    + reflexivity.
    + reflexivity.
    + intros x Hx Ht. apply (positional_names (Some ($"APP")) T_run); [|exact Hx|].
      * apply showable_tableb_ok. vm_compute. reflexivity.
      * unfold entry_is. by rewrite Ht.
Qed.
Example C83_version_example : argus_print_version ex_program (Dst ($"> ") heap0) =
  Shown (tt, Dst ($"> prog v1.2" ++ [newline] ++ [newline] ++ $"An example" ++ [newline]) heap0).
Proof. rewrite C83_version. reflexivity. Qed.
