(** * Properties of stream capturing *)
From Verif Require Import StreamProofs.

(** A program with three open streams and one open file; pipes hold 64 characters here. *)
Definition ex_os (fails fails2 mem : list bool) : os :=
  Os [Some (TFile 10); Some (TFile 11); Some (TFile 12); None; Some (TFile 13)] [] []
     (replicate 3 (Info (-1) (-1) (-1) (-1) false)) [] fails fails2 mem 64.
Lemma ex_os_fresh fails mem : fresh_start (ex_os fails [] mem).
Proof.
  assert (K : forall fd, standard fd -> fd = 0 \/ fd = 1 \/ fd = 2) by (unfold standard; lia).
  split.
  - split; [reflexivity|]. intros fd S (i & E & A). destruct (K fd S) as [->|[->| ->]]; cbn in E;
      injection E as <-; discriminate.
  - intros fd S. destruct (K fd S) as [->|[->| ->]]; eexists; reflexivity.
  - intros fd p [H|H]; exfalso; unfold connection in H; destruct (Z.ltb_spec fd 0) as [N|N];
      [by rewrite get_neg in H| |by rewrite get_neg in H|];
      rewrite get_pos in H by done; cbn [ex_os o_fds] in H;
      destruct (Z.to_nat fd) as [|[|[|[|[|n]]]]]; cbn in H; discriminate.
  - reflexivity.
Qed.

(** ** C48 *)

(** Whatever a program does with the four functions, and whatever system calls fail during
    stream_redirect, no call has undefined behaviour … *)
Theorem C48_safe s0 ops : fresh_start s0 -> match run s0 ops with Bad _ => False | _ => True end.
Proof. exact (stream_safe s0 ops). Qed.
Print Assumptions C48_safe.
(** … a restored stream is connected to what it was connected to at the start … *)
Theorem C48_restored s0 s fd s' :
  reached s0 s -> standard fd -> stream_restore s fd = Done s' ->
  connection s' fd = connection s0 fd /\ ~ captured s' fd.
Proof. exact (restored s0 s fd s'). Qed.
Print Assumptions C48_restored.
(** … and so is every stream that is not captured, in every state … *)
Theorem C48_uncaptured s0 s fd :
  reached s0 s -> standard fd -> ~ captured s fd -> connection s fd = connection s0 fd.
Proof. exact (back_again s0 s fd). Qed.
Print Assumptions C48_uncaptured.
(** … the program's other descriptors are never touched … *)
Theorem C48_others s0 s fd :
  reached s0 s -> ~ standard fd -> is_Some (connection s0 fd) -> connection s fd = connection s0 fd.
Proof. exact (others_kept s0 s fd). Qed.
Print Assumptions C48_others.
(** … and no descriptor is left open once nothing is captured. *)
Theorem C48_no_leak s0 s :
  reached s0 s -> (forall fd, standard fd -> ~ captured s fd) -> forall fd, connection s fd = connection s0 fd.
Proof. exact (none_left s0 s). Qed.
Print Assumptions C48_no_leak.
(** stream_redirect captures the stream or changes nothing; it refuses only a captured stream or
    when a system call fails. *)
Theorem C48_redirect s0 s fd :
  reached s0 s -> standard fd ->
  exists c s', stream_redirect s fd = Done (c, s') /\
  (c = STREAM_SUCCESS -> ~ captured s fd /\ captured s' fd /\
     connection s' fd = Some (TPipeW (length (o_pipes s))) /\ unread s' fd = held s fd) /\
  (c <> STREAM_SUCCESS -> (forall x, connection s' x = connection s x) /\
     (forall k, captured s' k <-> captured s k) /\ (captured s fd \/ o_fails s <> [])).
Proof. exact (redirect_cases s0 s fd). Qed.
Print Assumptions C48_redirect.
(** The clean-up restores everything if at most standard error is captured. *)
Theorem C48_cleanup_partial s0 s s' :
  reached s0 s -> ~ captured s 0 -> ~ captured s 1 -> stream_cleanup_all s = Done s' ->
  (forall fd, standard fd -> ~ captured s' fd) /\ forall fd, connection s' fd = connection s0 fd.
Proof. exact (cleanup_only_err s0 s s'). Qed.
Print Assumptions C48_cleanup_partial.
(** In every case: standard input stays as it was, standard output is restored exactly if standard
    input is captured too, standard error is restored. *)
Theorem C48_cleanup s0 s s' :
  reached s0 s -> stream_cleanup_all s = Done s' ->
  (captured s' 0 <-> captured s 0) /\ (captured s' 1 <-> captured s 1 /\ ~ captured s 0) /\ ~ captured s' 2 /\
  (forall fd, standard fd -> ~ captured s' fd -> connection s' fd = connection s0 fd).
Proof. exact (cleanup_exact s0 s s'). Qed.
Print Assumptions C48_cleanup.
Example C48_cleanup_example : exists s s' : os,
  reached (ex_os [] [] []) s /\ captured s 0 /\ captured s 1 /\ captured s 2 /\ stream_cleanup_all s = Done s' /\
  captured s' 0 /\ ~ captured s' 1 /\ ~ captured s' 2.
Proof.
  eexists _, _. split; [split; [apply ex_os_fresh|exists [ORedirect 0; ORedirect 1; ORedirect 2]; vm_compute; reflexivity]|].
  split; [eexists; split; reflexivity|]. split; [eexists; split; reflexivity|]. split; [eexists; split; reflexivity|].
  split; [vm_compute; reflexivity|]. split; [eexists; split; reflexivity|].
  split; intros (x & Ex & Ax); vm_compute in Ex; injection Ex as <-; discriminate.
Qed.

(** Both streams captured, the second attempt on one fails in [dup2], one read, both restored in
    the order of capture: the lowest free descriptors 3, 5, 6 … are used and given back. *)
Definition ex_session : list op :=
  [ORedirect 2; ORedirect 1; ORedirect 1; ORedirect 7; OPrintErr ($"oops"); OPrintOut ($"text") 2;
   ORead 2; ORestore 2; ORedirect 2; OPrintErr ($"lost"); ORestore 1].
Example C48_example : exists s,
  fresh_start (ex_os [false; false; false; false; false; true] [] []) /\
  run (ex_os [false; false; false; false; false; true] [] []) ex_session = Done s /\
  o_fds s = [Some (TFile 10); Some (TFile 11); Some (TPipeW 3); Some (TPipeR 3); Some (TFile 13); None; None; Some (TFile 12); None] /\
  captured s 2 /\
  exists s', stream_cleanup_all s = Done s' /\
    o_fds s' = [Some (TFile 10); Some (TFile 11); Some (TFile 12); None; Some (TFile 13); None; None; None; None].
Proof.
  eexists. split; [apply ex_os_fresh|]. split; [vm_compute; reflexivity|]. split; [reflexivity|].
  split; [eexists; split; reflexivity|].
  eexists. split; [vm_compute; reflexivity|]. reflexivity.
Qed.

(** With standard output captured the clean-up restores standard error instead: standard output
    stays connected to the pipe. *)
Theorem C48_cleanup_refuted : exists s0 s s',
  reached s0 s /\ captured s 1 /\ captured s 2 /\ stream_cleanup_all s = Done s' /\
  captured s' 1 /\ connection s' 1 <> connection s0 1.
Proof.
  exists (ex_os [] [] []). eexists _, _.
  split; [split; [apply ex_os_fresh|exists [ORedirect 1; ORedirect 2]; vm_compute; reflexivity]|].
  split; [eexists; split; reflexivity|]. split; [eexists; split; reflexivity|].
  split; [vm_compute; reflexivity|]. split; [eexists; split; reflexivity|]. cbn. discriminate.
Qed.
Print Assumptions C48_cleanup_refuted.
(** The result of the last [dup2] is not checked: if it fails, the stream stays connected to a pipe
    that nobody reads, the saved descriptor is closed, and the stream counts as restored. *)
Theorem C48_restore_refuted : exists s s',
  run (ex_os [] [true] []) [ORedirect 2] = Done s /\ stream_restore s 2 = Done s' /\
  ~ captured s' 2 /\ connection s' 2 = Some (TPipeW 0) /\ forall fd, connection s' fd <> Some (TFile 12).
Proof.
  eexists _, _. split; [vm_compute; reflexivity|]. split; [vm_compute; reflexivity|].
  split; [intros (i & E & A); cbn in E; injection E as <-; discriminate|]. split; [reflexivity|].
  intros fd H. unfold connection in H. destruct (Z.ltb_spec fd 0); [by rewrite get_neg in H|].
  rewrite get_pos in H by done. cbn [o_fds] in H.
  destruct (Z.to_nat fd) as [|[|[|[|[|[|[|n]]]]]]]; cbn in H; discriminate.
Qed.
Print Assumptions C48_restore_refuted.

(** ** C58 *)

(** Everything printed to a captured stream, and only that, is handed out by the next reading:
    whatever else the program captures, reads, restores and prints in between, however stdio
    divides the text. *)
Theorem C58_read s0 s1 s2 ops s3 fd :
  reached s0 s1 -> standard fd -> held s1 fd = [] -> stream_redirect s1 fd = Done (STREAM_SUCCESS, s2) ->
  run s2 ops = Done s3 -> forallb (leaves_alone fd) ops = true -> o_mem s3 = [] ->
  Z.of_nat (length (said fd ops)) <= o_cap s0 ->
  exists s4, stream_read s3 fd = Done (block_of (said fd ops), s4) /\ unread s4 fd = [].
Proof. exact (captured_text s0 s1 s2 ops s3 fd). Qed.
Print Assumptions C58_read.
(** Printing adds to what is unread, *)
Theorem C58_printed s0 s ops s' fd :
  reached s0 s -> standard fd -> captured s fd -> run s ops = Done s' -> forallb (leaves_alone fd) ops = true ->
  captured s' fd /\ unread s' fd = unread s fd ++ said fd ops.
Proof. exact (printed_kept s0 s ops s' fd). Qed.
Print Assumptions C58_printed.
(** reading hands it out, terminated, and leaves the other streams alone, so that readings can be
    repeated; *)
Theorem C58_again s0 s fd :
  reached s0 s -> standard fd -> captured s fd -> o_mem s = [] -> Z.of_nat (length (unread s fd)) <= o_cap s ->
  exists s', stream_read s fd = Done (block_of (unread s fd), s') /\ captured s' fd /\ unread s' fd = [] /\
    (forall k, standard k -> k <> fd -> unread s' k = unread s k) /\ o_mem s' = [].
Proof. exact (read_exact s0 s fd). Qed.
Print Assumptions C58_again.
(** and when memory runs out the text is never wrong. *)
Theorem C58_memory s0 s fd x s' :
  reached s0 s -> standard fd -> captured s fd -> stream_read s fd = Done (Some x, s') ->
  exists rest, x = map Some (unread s fd) ++ Some terminator :: rest.
Proof. exact (read_never_wrong s0 s fd x s'). Qed.
Print Assumptions C58_memory.

Example C58_example : exists s1 s2 s3 s4,
  let ops := [OPrintErr ($"one "); ORedirect 1; OPrintOut ($"other") 3; OPrintErr ($"two"); ORead 1] in
  reached (ex_os [] [] []) s1 /\ held s1 2 = [] /\ stream_redirect s1 2 = Done (STREAM_SUCCESS, s2) /\
  run s2 ops = Done s3 /\ forallb (leaves_alone 2) ops = true /\ o_mem s3 = [] /\
  Z.of_nat (length (said 2 ops)) <= 64 /\ said 2 ops = $"one two" /\
  stream_read s3 2 = Done (Some (map Some ($"one two") ++ [Some terminator]), s4).
Proof.
  eexists _, _, _, _. cbn zeta.
  split; [split; [apply ex_os_fresh|exists [OPrintOut ($"before") 0]; vm_compute; reflexivity]|].
  split; [reflexivity|]. split; [vm_compute; reflexivity|]. split; [vm_compute; reflexivity|].
  split; [reflexivity|]. split; [reflexivity|]. split; [vm_compute; discriminate|]. split; [reflexivity|].
  vm_compute. reflexivity.
Qed.

(** Text that stdio still holds when the capture begins is taken for captured text. *)
Theorem C58_buffered_refuted : exists s s',
  run (ex_os [] [] []) [OPrintOut ($"before ") 0; ORedirect 1; OPrintOut ($"after") 0] = Done s /\
  stream_read s 1 = Done (block_of ($"before after"), s').
Proof. eexists _, _. split; vm_compute; reflexivity. Qed.
Print Assumptions C58_buffered_refuted.
(** More text than the pipe holds: the printing call never returns. *)
Theorem C58_full_refuted t :
  64 < Z.of_nat (length t) -> run (ex_os [] [] []) [ORedirect 2; OPrintErr t] = Blocked.
Proof.
  intros L. cbn [run step ebind]. assert (E : exists s, stream_redirect (ex_os [] [] []) 2 = Done (0, s) /\
    fd_get (o_fds s) 2 = Some (TPipeW 0) /\ o_pipes s = [[]] /\ o_cap s = 64).
  { eexists. split; [vm_compute; reflexivity|]. done. }
  destruct E as (s & -> & F & P & C). cbn [ebind]. unfold print_err, sys_write. rewrite F, P, C. cbn [lookup list_lookup].
  rewrite (proj2 (Z.leb_gt _ _)); [done|]. cbn. lia.
Qed.
Print Assumptions C58_full_refuted.
(** Unread text is thrown away by stream_restore. *)
Theorem C58_lost_refuted : exists s,
  run (ex_os [] [] []) [ORedirect 2; OPrintErr ($"message"); ORestore 2] = Done s /\
  o_files s = [] /\ o_pipes s = [[]] /\ unread s 2 = [].
Proof. eexists. split; [vm_compute; reflexivity|]. done. Qed.
Print Assumptions C58_lost_refuted.

(** stream_is_active tells exactly which standard streams do not go where they went at the start. *)
Theorem C48_active s0 s fd : reached s0 s ->
  stream_is_active s fd = true <-> standard fd /\ connection s fd <> connection s0 fd.
Proof. exact (active_exact s0 s fd). Qed.
Print Assumptions C48_active.

Example C48_active_example : exists s,
  reached (ex_os [] [] []) s /\ stream_is_active s 2 = true /\ stream_is_active s 1 = false /\
  stream_is_active s 8 = false /\ connection s 2 = Some (TPipeW 1) /\ connection s 1 = Some (TFile 11) /\
  connection s 8 = Some (TFile 12).
Proof.
  eexists. split; [split; [apply ex_os_fresh|exists [ORedirect 1; ORedirect 2; ORestore 1]; vm_compute; reflexivity]|].
  split_and!; vm_compute; reflexivity.
Qed.
