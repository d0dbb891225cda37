(** * A program written like the examples *)
From Verif Require Export Api.

Section program.
Context `{Libc}.

(** main (examples/subcommands.c 63-80; examples/nested_commands.c 87-109): parse, leave with the
    status of the parse when it failed, call the action of the subcommand if there is one, free,
    return 0.  The status of the action is dropped, as in both files.  [look] is what main reads
    from the context before the action and [look'] what is read afterwards and by the action
    (argus_get and the like, which write the last error into the context); what actions do
    otherwise, and the text printed without a command (subcommands.c 76), are not modelled.  The
    number is the exit status of the process. *)
Definition example_main (act : nat -> Z) (look look' : argus -> argus) (a : argus) (argv : list cstr)
  : res (Z * argus) :=
  let* (o, a1) := argus_parse a argv in
  match o with
  | Exited c => Ok (c, a1)
  | Returned st =>
      if negb (st =? SUCCESS) then Ok (st, a1)
      else
        let a2 := look a1 in
        let* a3 := if argus_has_command a2 then let* (_, a3) := argus_exec act a2 in Ok a3 else Ok a2 in
        let* a4 := argus_free (look' a3) in
        Ok (0, a4)
  end.
End program.
