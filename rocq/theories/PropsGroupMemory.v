(** * Exactly when the help screen fails for want of memory: property C54 *)
From Verif Require Import Macros Validate Api DisplayFacts ExLib ExDisplay GroupMemoryProofs.

(** Whatever allocations fail: help dereferences a null pointer if the record of a group is refused,
    otherwise it ends, and releases what it allocated. *)
Theorem C54_exact `{Libc, Printf} p a command t T names s :
  printf_ok -> endable (p_config p) -> showable_table (a_prefix a) T -> selected a names ->
  match command with Some c => Some c = t | None => get_active_options a = Ok t end ->
  table_ptr t a = Ok T ->
  (record_refused T (oom (s_heap s)) -> display_help p a command s = Fault NullDeref) /\
  (~ record_refused T (oom (s_heap s)) ->
   exists u h', display_help p a command s = Shown (tt, Dst (s_out s ++ u) h') /\ released (s_heap s) h').
Proof. exact (help_memory p a command t T names s). Qed.
Print Assumptions C54_exact.

(** One group among three other options and two commands: its record is the fourth request. *)
Example C54_exact_requests :
  requests T_help = [false; false; false; true; false; false; false; false; false].
Proof. vm_compute. reflexivity. Qed.
(** Nearly everything is refused, but not that record. *)
Definition ex_refusals : list bool := [true; false; true; false; true; true; false; true; true; true; true].
Example C54_exact_example :
  (exists u h', display_help (H := libc0) (H0 := printf0) ex_program ex_help_ctx None (Dst [] (Heap [] ex_refusals)) =
     Shown (tt, Dst ([] ++ u) h') /\ released (Heap [] ex_refusals) h') /\
  display_help (H := libc0) (H0 := printf0) ex_program ex_help_ctx None
    (Dst [] (Heap [] [true; false; true; true])) = Fault NullDeref.
Proof.
  assert (T : forall s, (record_refused T_help (oom (s_heap s)) ->
      display_help (H := libc0) (H0 := printf0) ex_program ex_help_ctx None s = Fault NullDeref) /\
    (~ record_refused T_help (oom (s_heap s)) -> exists u h',
      display_help (H := libc0) (H0 := printf0) ex_program ex_help_ctx None s = Shown (tt, Dst (s_out s ++ u) h') /\
      released (s_heap s) h')).
  { intros s. apply (C54_exact (H := libc0) (H0 := printf0) ex_program ex_help_ctx None (Some 0%nat) T_help [] s).
    - apply printf0_ok.
    - vm_compute. discriminate.
    - apply showable_tableb_ok. vm_compute. reflexivity.
    - constructor.
    - reflexivity.
    - reflexivity. }
  split.
  - apply (proj2 (T (Dst [] (Heap [] ex_refusals)))). intros (k & K1 & K2). rewrite C54_exact_requests in K1.
    do 4 (destruct k as [|k]; [done|]). do 5 (destruct k as [|k]; [done|]). done.
  - apply (proj1 (T (Dst [] (Heap [] [true; false; true; true])))). exists 3%nat. by rewrite C54_exact_requests.
Qed.
