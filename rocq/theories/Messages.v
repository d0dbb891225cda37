(** * Error messages as they are printed

    The messages of the model are lists of pieces ([State.v]); here they become the text that
    goes to standard error.  What PCRE2 reports about a pattern (pcre2_get_error_message, and the
    code printed for a match that fails; regex_validator.c 52-54, 79) is the argument [pcre]. *)
From Verif Require Export Display Api.

Section messages.
Context `{Libc} (pcre : cstr -> cstr).

(** One conversion of the format.  The list of choices is that of format_choices_validator
    (choices_validator.c 87-140); its allocation is taken to succeed. *)
Definition render_piece (x : piece) : res cstr :=
  match x with
  | MText s => Ok s
  | MStr (Some s) => Ok s
  | MStr None => UB NullDeref
  | MChr c => Ok [c]
  | MInt z => Ok (dec z)
  | MFloat f => Ok (fmt_f f)
  | MChoices (VChoicesStr l) => choices_text (ChStr l)
  | MChoices (VChoicesInt l) => choices_text (ChInt l)
  | MChoices (VChoicesFloat l) => choices_text (ChFloat l)
  | MChoices _ => UB WildPtr
  | MPcre p => Ok (pcre p)
  end.
Fixpoint render (m : message) : res cstr :=
  match m with
  | [] => Ok []
  | x :: m' => let* t := render_piece x in let* r := render m' in Ok (t ++ r)
  end.

(** argus_parsing_error (errors.h 119-132): the name of the program, the text, end of line *)
Definition error_line (p : program) (m : message) : res cstr :=
  let* t := render m in Ok (p_name p ++ $": " ++ t ++ [newline]).

(** The loop over subcommand_stack (argus_parse.c 33-34) *)
Fixpoint stack_words (a : argus) (stk : list (nat * nat)) : res cstr :=
  match stk with
  | [] => Ok []
  | r :: stk' =>
      let* o := get_option a (fst r) (snd r) in
      match d_name (decl_of o) with
      | None => UB NullDeref
      | Some n => let* w := stack_words a stk' in Ok ($" " ++ n ++ w)
      end
  end.
(** What argus_parse (argus_parse.c 30-35) prints on standard error around the usage line (which
    goes to standard output) *)
Definition help_hint (p : program) (a : argus) : res cstr :=
  let* w := stack_words a (a_stack a) in
  Ok ([newline] ++ [newline] ++ $"Try '" ++ p_name p ++ w ++ $" --help' for more information." ++ [newline]).

(** Standard error after the events [l]; [a] gives the stack of subcommands, which does not
    change after the usage has been printed. *)
Fixpoint printed (p : program) (a : argus) (l : list event) : res cstr :=
  match l with
  | [] => Ok []
  | EDiag _ m :: l' => let* t := error_line p m in let* r := printed p a l' in Ok (t ++ r)
  | EUsage :: l' => let* t := help_hint p a in let* r := printed p a l' in Ok (t ++ r)
  | _ :: l' => printed p a l'
  end.
Definition stderr_of (p : program) (a : argus) : res cstr := printed p a (a_log a).
End messages.
