(** * Standard output of a parse

    The log of a context ([State.v]) tells when the library shows a screen; here the screens are
    printed, with the functions of [Display.v]. *)
From Verif Require Export Display Api.

Section stdout.
Context `{Libc, Printf}.

(** help_handler (help_handler.c 15-25): the usage and the help of the active options;
    version_handler (version_handler.c 15-22): the version; argus_parse (argus_parse.c 31): the
    usage of a refused line.  Messages go to standard error ([Messages.v]).  What handlers of
    the program print is not modelled. *)
Definition screen_of (p : program) (a : argus) (e : event) : DM unit :=
  match e with
  | EHelp t => display_usage p a ;;^ display_help p a (Some t)
  | EVersion => display_version p
  | EUsage => display_usage p a
  | _ => dret tt
  end.
(** The screens of a log, one after the other.  [a] gives the declarations, which never change,
    and the stack of subcommands.  The stack is that of the end of the parse: it is the one at the
    time of the event for the usage of a refused line and for an option that leaves the
    program, because nothing is read after them. *)
Fixpoint screens (p : program) (a : argus) (l : list event) : DM unit :=
  match l with
  | [] => dret tt
  | e :: l' => screen_of p a e ;;^ screens p a l'
  end.
(** What a parse that ended in [a] has printed, and the memory it leaves behind; [h] is the memory
    before the first screen. *)
Definition stdout_of (p : program) (a : argus) (h : heap) : shown (unit * dst) :=
  screens p a (a_log a) (Dst [] h).
End stdout.
