(** * Judging a default value with standard error captured
      (source/core/validation/validate_arguments.c 18-49 on top of source/utils/stream.c)

    [Validate.v] and [StructErrors.v] take the redirection of standard error to succeed; here the
    same loop runs on the descriptors, pipes and failing calls of [Stream.v]. *)
From Verif Require Export StructErrors Stream.

Definition of_res {A} (m : res A) : ended A := match m with Ok a => Done a | UB u => Bad u end.

Section default.
Context `{Libc} (pcre : cstr -> cstr) (p : program).

(** The call of one validator (28-37): its status and what it prints to standard error.  A validator
    of the program is taken to print nothing, as in [run_validator]. *)
Definition call_validator (o : opt) (h : heap) (e : ventry) : res (Z * cstr) :=
  let* (r, ev) :=
    match v_order e with
    | ORDER_PRE =>
        if (d_vtype (decl_of o) =? VT_STRING)%N then
          let* s := read_str h (d_default (decl_of o)) in
          run_validator (v_fun e) (ArgText s) h
        else Ok (SUCCESS, [])
    | ORDER_POST => run_validator (v_fun e) (ArgOption o) h
    end in
  let* t := captured pcre p ev in
  Ok (r, t).
(** Printing no text makes no system call. *)
Definition print_text (s : os) (t : cstr) : ended os := match t with [] => Done s | _ => print_err s t end.

(** The loop (25-46): the status of redirect_stderr is ignored, read_stderr may give NULL, which is
    then handed to [%s].  The memory of the message is released (42), it has no part in [os]. *)
Fixpoint default_validators_on (s : os) (file : option cstr) (line : Z) (o : opt) (h : heap) (l : list ventry) (st : Z)
  : ended (Z * os) :=
  match l with
  | [] => Done (st, s)
  | e :: l' =>
      ebind (stream_redirect s 2) (fun '(_, s) =>
      ebind (of_res (call_validator o h e)) (fun '(r, t) =>
      ebind (print_text s t) (fun s =>
      let st1 := if r =? SUCCESS then st else E_INVALID_DEFAULT in
      if st1 =? SUCCESS then
        ebind (stream_restore s 2) (fun s => default_validators_on s file line o h l' st1)
      else
        ebind (stream_read s 2) (fun '(m, s) =>
        ebind (stream_restore s 2) (fun s =>
        match m with
        | None => Bad NullDeref
        | Some b =>
            ebind (of_res (read_string b)) (fun t =>
            ebind (of_res (struct_error_line file line (Some o)
              ($"Default value does not pass validations: " ++ [newline] ++ ["009"%char] ++ $"    " ++ t))) (fun x =>
            ebind (print_err s x) (fun s => default_validators_on s file line o h l' E_INVALID_DEFAULT)))
        end)))))
  end.
(** validate_default_value (18-49) *)
Definition validate_default_on (s : os) (file : option cstr) (line : Z) (o : opt) (h : heap) : ended (Z * os) :=
  let d := decl_of o in
  if d_have_default d then
    if (d_vtype d =? VT_FLAG)%N then
      ebind (of_res (struct_error_line file line (Some o) ($"Option type flag cannot have a default value"))) (fun x =>
      ebind (print_err s x) (fun s => Done (E_INVALID_DEFAULT, s)))
    else match d_validators d with
         | None => Done (SUCCESS, s)
         | Some l => default_validators_on s file line o h l SUCCESS
         end
  else Done (SUCCESS, s).
End default.
