(** * Capturing standard streams (source/utils/stream.c)

    The parts of the operating system that the file uses: the table of file descriptors, pipes,
    and the text written to everything else.  Descriptor numbers are allocated from the lowest
    free one.  Only the POSIX branch of the file is modelled; reading from the read end never
    blocks (fcntl is assumed to succeed, 83-84).  A write that does not fit a pipe blocks for
    ever, because the only reader is the process itself. *)
From Verif Require Export Buffer.

Inductive target :=
  | TFile (n : nat)          (* a file or terminal *)
  | TPipeR (p : nat)         (* the read end of pipe [p] *)
  | TPipeW (p : nat).        (* its write end *)

(** stream_info_t (38-44) *)
Record stream_info := Info {
  i_fd : Z;
  i_read : Z;                (* pipe_fds[0] *)
  i_write : Z;               (* pipe_fds[1] *)
  i_backup : Z;
  i_active : bool;
}.

Record os := Os {
  o_fds : list (option target);      (* the descriptor table; the rest is free *)
  o_files : list (nat * cstr);       (* everything written to files, in order *)
  o_pipes : list cstr;               (* the unread bytes of each pipe *)
  o_infos : list stream_info;        (* streams (46) *)
  o_pending : cstr;                  (* what stdio holds back for standard output *)
  o_fails : list bool;               (* which of the next pipe, dup and dup2 calls of stream_redirect fail *)
  o_fails2 : list bool;              (* which of the next dup2 calls of stream_restore fail *)
  o_mem : list bool;                 (* which of the next reallocations fail *)
  o_cap : Z;                         (* capacity of a pipe *)
}.
Definition with_fds (s : os) f := Os f (o_files s) (o_pipes s) (o_infos s) (o_pending s) (o_fails s) (o_fails2 s) (o_mem s) (o_cap s).
Definition with_files (s : os) f := Os (o_fds s) f (o_pipes s) (o_infos s) (o_pending s) (o_fails s) (o_fails2 s) (o_mem s) (o_cap s).
Definition with_pipes (s : os) f := Os (o_fds s) (o_files s) f (o_infos s) (o_pending s) (o_fails s) (o_fails2 s) (o_mem s) (o_cap s).
Definition with_infos (s : os) f := Os (o_fds s) (o_files s) (o_pipes s) f (o_pending s) (o_fails s) (o_fails2 s) (o_mem s) (o_cap s).
Definition with_pending (s : os) f := Os (o_fds s) (o_files s) (o_pipes s) (o_infos s) f (o_fails s) (o_fails2 s) (o_mem s) (o_cap s).
Definition with_fails (s : os) f := Os (o_fds s) (o_files s) (o_pipes s) (o_infos s) (o_pending s) f (o_fails2 s) (o_mem s) (o_cap s).
Definition with_fails2 (s : os) f := Os (o_fds s) (o_files s) (o_pipes s) (o_infos s) (o_pending s) (o_fails s) f (o_mem s) (o_cap s).
Definition with_mem (s : os) f := Os (o_fds s) (o_files s) (o_pipes s) (o_infos s) (o_pending s) (o_fails s) (o_fails2 s) f (o_cap s).

(** The outcome of a call: it ends, blocks for ever, or is undefined. *)
Inductive ended (A : Type) := Done (a : A) | Blocked | Bad (u : ub).
Arguments Done {A} a.
Arguments Blocked {A}.
Arguments Bad {A} u.
Definition ebind {A B} (m : ended A) (k : A -> ended B) : ended B :=
  match m with Done a => k a | Blocked => Blocked | Bad u => Bad u end.

(** ** System calls *)

(** What descriptor [fd] refers to. *)
Definition fd_get (f : list (option target)) (fd : Z) : option target :=
  if fd <? 0 then None else match f !! Z.to_nat fd with Some t => t | None => None end.
Fixpoint lowest (f : list (option target)) : nat :=
  match f with
  | Some _ :: f' => S (lowest f')
  | _ => O
  end.
Definition fd_open (f : list (option target)) (t : target) : nat * list (option target) :=
  let n := lowest f in
  (n, if (n <? length f)%nat then <[n := Some t]> f else f ++ [Some t]).
Definition fd_close (f : list (option target)) (fd : Z) : list (option target) :=
  if fd <? 0 then f else <[Z.to_nat fd := None]> f.
Definition pop (l : list bool) : bool * list bool :=
  match l with [] => (false, []) | b :: l' => (b, l') end.

Definition sys_close (s : os) (fd : Z) : os := with_fds s (fd_close (o_fds s) fd).
(** [pipe]: the read end and the write end *)
Definition sys_pipe (s : os) : option (nat * nat) * os :=
  let '(bad, l) := pop (o_fails s) in
  let s := with_fails s l in
  if bad then (None, s)
  else
    let p := length (o_pipes s) in
    let '(r, f1) := fd_open (o_fds s) (TPipeR p) in
    let '(w, f2) := fd_open f1 (TPipeW p) in
    (Some (r, w), with_pipes (with_fds s f2) (o_pipes s ++ [[]])).
(** [dup] *)
Definition sys_dup (s : os) (fd : Z) : option nat * os :=
  let '(bad, l) := pop (o_fails s) in
  let s := with_fails s l in
  match fd_get (o_fds s) fd with
  | Some t => if bad then (None, s)
              else let '(n, f) := fd_open (o_fds s) t in (Some n, with_fds s f)
  | None => (None, s)
  end.
(** [dup2] onto an open descriptor; [bad] = it fails *)
Definition sys_dup2 (bad : bool) (s : os) (old new : Z) : bool * os :=
  match fd_get (o_fds s) old with
  | Some t => if bad then (false, s) else (true, with_fds s (<[Z.to_nat new := Some t]> (o_fds s)))
  | None => (false, s)
  end.
(** [write]: on a closed descriptor or a read end it fails and the text is lost *)
Definition sys_write (s : os) (fd : Z) (t : cstr) : ended os :=
  match fd_get (o_fds s) fd with
  | Some (TFile n) => Done (with_files s (o_files s ++ [(n, t)]))
  | Some (TPipeW p) =>
      match o_pipes s !! p with
      | Some c =>
          if Z.of_nat (length c) + Z.of_nat (length t) <=? o_cap s
          then Done (with_pipes s (<[p := c ++ t]> (o_pipes s)))
          else Blocked
      | None => Done s
      end
  | _ => Done s
  end.
(** [read] of at most [n] bytes; an empty pipe gives none *)
Definition sys_read (s : os) (fd : Z) (n : nat) : cstr * os :=
  match fd_get (o_fds s) fd with
  | Some (TPipeR p) =>
      match o_pipes s !! p with
      | Some c => (take n c, with_pipes s (<[p := drop n c]> (o_pipes s)))
      | None => ([], s)
      end
  | _ => ([], s)
  end.

(** ** stdio: standard error is not buffered; of the text held back for standard output the
    first [k] bytes are written out when more is printed *)
Definition print_err (s : os) (t : cstr) : ended os := sys_write s 2 t.
Definition print_out (s : os) (t : cstr) (k : nat) : ended os :=
  let all := o_pending s ++ t in
  let s := with_pending s (drop k all) in
  match take k all with [] => Done s | u => sys_write s 1 u end.
(** [fflush (stdout)]; [fflush (stderr)] does nothing *)
Definition flush_out (s : os) : ended os :=
  match o_pending s with
  | [] => Done s
  | u => sys_write (with_pending s []) 1 u
  end.
Definition flush (s : os) (fd : Z) : ended os := if fd =? 1 then flush_out s else Done s.

(** ** stream.c *)
Definition BUFFER_SIZE : nat := Z.to_nat 4096.
Definition STREAM_SUCCESS : Z := 0.
Definition STREAM_ERROR_INVALID_FD : Z := -1.
Definition STREAM_ERROR_ALREADY_ACTIVE : Z := -2.
Definition STREAM_ERROR_PIPE_FAILED : Z := -3.
Definition STREAM_ERROR_DUP_FAILED : Z := -4.

(** is_valid_fd (48-51) *)
Definition is_valid_fd (fd : Z) : bool := (fd =? 1) || (fd =? 2) || (fd =? 0).
Definition info_at (s : os) (fd : Z) : option stream_info := o_infos s !! Z.to_nat fd.
Definition set_info (s : os) (fd : Z) (i : stream_info) : os :=
  with_infos s (<[Z.to_nat fd := i]> (o_infos s)).

(** stream_redirect (53-90); the fields of the record are written as the C code does *)
Definition stream_redirect (s : os) (fd : Z) : ended (Z * os) :=
  if negb (is_valid_fd fd) then Done (STREAM_ERROR_INVALID_FD, s)
  else
    match info_at s fd with
    | None => Bad OutOfBounds
    | Some i =>
        if i_active i then Done (STREAM_ERROR_ALREADY_ACTIVE, s)
        else
          match sys_pipe s with
          | (None, s) => Done (STREAM_ERROR_PIPE_FAILED, s)
          | (Some (r, w), s) =>
              let r := Z.of_nat r in
              let w := Z.of_nat w in
              match sys_dup s fd with
              | (None, s) =>
                  let s := set_info s fd (Info (i_fd i) r w (-1) false) in
                  Done (STREAM_ERROR_DUP_FAILED, sys_close (sys_close s r) w)
              | (Some b, s) =>
                  let b := Z.of_nat b in
                  let '(bad, l) := pop (o_fails s) in
                  match sys_dup2 bad (with_fails s l) w fd with
                  | (false, s) =>
                      let s := set_info s fd (Info (i_fd i) r w b false) in
                      Done (STREAM_ERROR_DUP_FAILED, sys_close (sys_close (sys_close s b) r) w)
                  | (true, s) =>
                      let s := sys_close s w in
                      Done (STREAM_SUCCESS, set_info s fd (Info fd r (-1) b true))
                  end
              end
          end
    end.

(** The growth of the result (113-116): doubled until it has room for [need] bytes; [fuel] turns
    are enough because the capacity at least doubles *)
Fixpoint grow (fuel need cap : nat) : nat :=
  match fuel with
  | O => cap
  | S fuel' => if (cap <? need)%nat then grow fuel' need (cap * 2) else cap
  end.
Definition grown (need cap : nat) : nat :=
  grow need need (match cap with O => BUFFER_SIZE | _ => cap * 2 end).
(** [realloc] to [n] bytes: the old bytes are kept *)
Definition realloc_to (b : bytes) (n : nat) : bytes := take n b ++ replicate (n - length b) None.

(** The loop of stream_read (112-127): [result] has [length result] bytes, [total] of them
    used; the result is [None] when memory runs out *)
Fixpoint read_loop (fuel : nat) (s : os) (fd : Z) (result : bytes) (total : nat)
  : ended (option (bytes * nat) * os) :=
  match fuel with
  | O => Blocked
  | S fuel' =>
      let '(chunk, s) := sys_read s fd BUFFER_SIZE in
      match chunk with
      | [] => Done (Some (result, total), s)
      | _ =>
          let need := (total + length chunk + 1)%nat in
          let more r s :=
            match write r total chunk with
            | Ok r' => read_loop fuel' s fd r' (total + length chunk)
            | UB u => Bad u
            end in
          if (length result <? need)%nat then
            let '(bad, l) := pop (o_mem s) in
            let s := with_mem s l in
            if bad then Done (None, s) else more (realloc_to result (grown need (length result))) s
          else more result s
      end
  end.
(** The number of reads that empty the pipe. *)
Definition reads (s : os) (fd : Z) : nat :=
  match fd_get (o_fds s) fd with
  | Some (TPipeR p) => match o_pipes s !! p with Some c => (length c + 1)%nat | None => 1%nat end
  | _ => 1%nat
  end.

(** stream_read (92-148): the bytes of the block returned, [None] for NULL *)
Definition stream_read (s : os) (fd : Z) : ended (option bytes * os) :=
  if negb (is_valid_fd fd) then Done (None, s)
  else
    match info_at s fd with
    | None => Bad OutOfBounds
    | Some i =>
        if negb (i_active i) then Done (None, s)
        else
          ebind (flush s fd) (fun s =>
          ebind (read_loop (reads s (i_read i)) s (i_read i) [] 0) (fun '(r, s) =>
          match r with
          | None => Done (None, s)
          | Some (result, total) =>
              if (total =? 0)%nat then Done (None, s)
              else
                match write result total [terminator] with
                | UB u => Bad u
                | Ok result =>
                    let '(bad, l) := pop (o_mem s) in
                    let s := with_mem s l in
                    Done (Some (if bad then result else realloc_to result (total + 1)), s)
                end
          end))
    end.

(** The loop of stream_restore (166-168) *)
Fixpoint drain (fuel : nat) (s : os) (fd : Z) : os :=
  match fuel with
  | O => s
  | S fuel' =>
      let '(chunk, s') := sys_read s fd BUFFER_SIZE in
      match chunk with [] => s' | _ => drain fuel' s' fd end
  end.
(** stream_restore (150-178) *)
Definition stream_restore (s : os) (fd : Z) : ended os :=
  if negb (is_valid_fd fd) then Done s
  else
    match info_at s fd with
    | None => Bad OutOfBounds
    | Some i =>
        if negb (i_active i) then Done s
        else
          ebind (flush s fd) (fun s =>
          let s := drain (reads s (i_read i)) s (i_read i) in
          let '(bad, l) := pop (o_fails2 s) in
          let '(_, s) := sys_dup2 bad (with_fails2 s l) (i_backup i) fd in
          let s := sys_close (sys_close s (i_backup i)) (i_read i) in
          Done (set_info s fd (Info (-1) (-1) (-1) (-1) false)))
    end.

(** stream_is_active (180-186) *)
Definition stream_is_active (s : os) (fd : Z) : bool :=
  if negb (is_valid_fd fd) then false
  else match info_at s fd with Some i => i_active i | None => false end.

(** stream_cleanup_all (188-197) *)
Definition cleanup_one (s : os) (i : nat) : ended os :=
  match o_infos s !! i with
  | None => Bad OutOfBounds
  | Some info => if i_active info then stream_restore s (if (i =? 0)%nat then 1 else 2) else Done s
  end.
Definition stream_cleanup_all (s : os) : ended os :=
  ebind (cleanup_one s 0) (fun s => ebind (cleanup_one s 1) (fun s => cleanup_one s 2)).
