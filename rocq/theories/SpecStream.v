(** * Specification of stream capturing: descriptors and captured text *)
From Verif Require Export Stream.

(** What a program can do. *)
Inductive op :=
  | ORedirect (fd : Z)
  | ORead (fd : Z)
  | ORestore (fd : Z)
  | OCleanup
  | OPrintOut (t : cstr) (k : nat)   (* print to stdout; stdio then writes out k bytes *)
  | OPrintErr (t : cstr).
Definition step (s : os) (o : op) : ended os :=
  match o with
  | ORedirect fd => ebind (stream_redirect s fd) (fun '(_, s) => Done s)
  | ORead fd => ebind (stream_read s fd) (fun '(_, s) => Done s)
  | ORestore fd => stream_restore s fd
  | OCleanup => stream_cleanup_all s
  | OPrintOut t k => print_out s t k
  | OPrintErr t => print_err s t
  end.
Fixpoint run (s : os) (ops : list op) : ended os :=
  match ops with
  | [] => Done s
  | o :: ops' => ebind (step s o) (fun s => run s ops')
  end.

(** What a descriptor is connected to. *)
Definition connection (s : os) (fd : Z) : option target := fd_get (o_fds s) fd.
Definition standard (fd : Z) : Prop := 0 <= fd <= 2.
Definition captured (s : os) (fd : Z) : Prop := exists i, o_infos s !! Z.to_nat fd = Some i /\ i_active i = true.

(** The state of a program that has not captured anything: the three standard descriptors are
    open, and [dup2] back to a saved descriptor will not fail. *)
Record fresh_start (s : os) : Prop := {
  fs_infos : length (o_infos s) = 3%nat /\ forall fd, standard fd -> ~ captured s fd;
  fs_open : forall fd, standard fd -> is_Some (connection s fd);
  fs_pipes : forall fd p, connection s fd = Some (TPipeR p) \/ connection s fd = Some (TPipeW p) ->
    (p < length (o_pipes s))%nat;
  fs_restore : o_fails2 s = [];
}.

(** The text printed to a stream by a list of operations, none of which reads or restores it. *)
Fixpoint said (fd : Z) (ops : list op) : cstr :=
  match ops with
  | [] => []
  | OPrintOut t _ :: ops' => (if fd =? 1 then t else []) ++ said fd ops'
  | OPrintErr t :: ops' => (if fd =? 2 then t else []) ++ said fd ops'
  | _ :: ops' => said fd ops'
  end.
Definition leaves_alone (fd : Z) (o : op) : bool :=
  match o with
  | ORead fd' | ORestore fd' => negb (fd =? fd')
  | OCleanup => false
  | _ => true
  end.
(** What stdio still holds back for a stream. *)
Definition held (s : os) (fd : Z) : cstr := if fd =? 1 then o_pending s else [].
(** What was printed to a captured stream and has not been read: what the pipe holds and what
    stdio still holds back. *)
Definition in_pipe (s : os) (fd : Z) : cstr :=
  match connection s fd with Some (TPipeW p) => default [] (o_pipes s !! p) | _ => [] end.
Definition unread (s : os) (fd : Z) : cstr := in_pipe s fd ++ held s fd.
(** The block that holds a text, NULL for no text. *)
Definition block_of (t : cstr) : option bytes :=
  match t with [] => None | _ => Some (map Some t ++ [Some terminator]) end.
(** States that a program starting at [s0] can be in. *)
Definition reached (s0 s : os) : Prop := fresh_start s0 /\ exists ops, run s0 ops = Done s.
