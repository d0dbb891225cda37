(** * Public entry points: free, parse, exec, value access, iterators *)
From Verif Require Export Parse.

(** ** argus_free (source/api/argus_free.c) *)

(** free_option_value on one option of the context *)
Definition free_option (a : argus) (t i : nat) : res argus :=
  let* o := get_option a t i in
  let* (_, s) := free_option_value (Hst o (a_heap a) []) in
  Ok (set_heap (put_option a t i (h_opt s)) (h_heap s)).

(** free_options (argus_free.c 15-19): from index [i] on, [n] entries left *)
Fixpoint free_options_from (a : argus) (t i n : nat) : res argus :=
  match n with
  | O => Ok a
  | S n' => let* a' := free_option a t i in free_options_from a' t (S i) n'
  end.
Definition free_options (a : argus) (tp : option nat) : res argus :=
  let* T := table_ptr tp a in
  match tp with
  | Some t => free_options_from a t O (length T)
  | None => UB NullDeref
  end.

(** argus_free (argus_free.c 21-29) *)
Fixpoint free_stack (a : argus) (stk : list (nat * nat)) : res argus :=
  match stk with
  | [] => Ok a
  | r :: stk' =>
      let* s := sub_of a r in
      let* a' := free_options a s in
      free_stack a' stk'
  end.
Definition argus_free (a : argus) : res argus :=
  let* a' := free_options a (Some (a_root a)) in
  free_stack a' (a_stack a').

(** ** argus_parse (source/api/argus_parse.c 21-50)

    [Exited c]: the process ended with exit code [c].  The usage text printed after
    a parse error (argus_parse.c 30-35) is the event [EUsage].  [argv] is the argument
    vector without the program name. *)
Inductive outcome := Returned (status : Z) | Exited (exit_code : Z).

Definition argus_parse `{Libc} (a : argus) (argv : list cstr) : res (outcome * argus) :=
  let* (st, a1) := parse_args a (Some (a_root a)) O false argv in
  let a1 := set_err a1 st in
  if st =? SHOULD_EXIT then
    let* a2 := argus_free a1 in Ok (Exited SUCCESS, a2)
  else if negb (st =? SUCCESS) then
    let* a2 := argus_free (add_log a1 [EUsage]) in Ok (Returned st, a2)
  else
    let* (st, a2) := load_env_vars a1 in
    if negb (st =? SUCCESS) then
      let* a3 := argus_free a2 in Ok (Returned st, a3)
    else
      let* (st, a3) := post_parse_validation a2 in
      if negb (st =? SUCCESS) then
        let* a4 := argus_free a3 in Ok (Returned st, a4)
      else Ok (Returned SUCCESS, a3).

(** ** argus_exec (source/api/argus_exec.c 15-35)

    A user action is identified by a number; [act] gives the status it returns. *)
Definition argus_has_command (a : argus) : bool := (0 <? length (a_stack a))%nat.
Definition argus_exec (act : nat -> Z) (a : argus) : res (Z * argus) :=
  match last (a_stack a) with
  | None => Ok (E_NO_COMMAND, add_log a [ECommands])
  | Some r =>
      let* o := get_option a (fst r) (snd r) in
      match d_action (decl_of o) with
      | None => Ok (E_INVALID_HANDLER, add_log a [ECommands])
      | Some id => Ok (act id, add_log a [EAction id])
      end
  end.

(** ** Value access (source/api/argus_value_access.c) *)

Definition lookup_option (a : argus) (path : option cstr) : res (option opt) :=
  let* r := find_option_by_active_path a path in
  match r with
  | None => Ok None
  | Some (t, i) => let* o := get_option a t i in Ok (Some o)
  end.

(** argus_get (16-25): value and new context *)
Definition argus_get (a : argus) (path : option cstr) : res (uval * argus) :=
  let a := set_err a 0 in
  let* r := lookup_option a path in
  match r with
  | None => Ok (VNull, set_err a E_NO_VALUE)
  | Some o => Ok (value o, a)
  end.
(** argus_is_set (27-33) *)
Definition argus_is_set (a : argus) (path : option cstr) : res bool :=
  let* r := lookup_option a path in
  Ok (match r with None => false | Some o => is_set o end).
(** argus_count (35-41) *)
Definition argus_count (a : argus) (path : option cstr) : res nat :=
  let* r := lookup_option a path in
  Ok (match r with None => O | Some o => value_count o end).

(** argus_array_get (43-67) *)
Definition argus_array_get (a : argus) (path : option cstr) (index : nat) : res (uval * argus) :=
  let a := set_err a 0 in
  let* r := lookup_option a path in
  match r with
  | None => Ok (VNull, set_err a E_NO_VALUE)
  | Some o =>
      if negb (has (d_vtype (decl_of o)) (N.lor VT_ARRAY VT_VARIADIC)) then
        Ok (VNull, set_err a E_INVALID_TYPE)
      else if (value_count o <=? index)%nat then Ok (VNull, set_err a E_INVALID_INDEX)
      else
        let* cs := deref_arr (value o) (a_heap a) in
        let* x := cell cs index in
        Ok (x, a)
  end.

(** The loop of argus_map_get (84-88) *)
Fixpoint map_get_loop (h : heap) (p : uval) (key : cstr) (i n : nat) : res (option uval) :=
  match n with
  | O => Ok None
  | S n' =>
      let* cs := deref_map p h in
      let* kv := cell cs i in
      let* k := read_str h (fst kv) in
      match k with
      | Some s => if strcmp s key =? 0 then Ok (Some (snd kv)) else map_get_loop h p key (S i) n'
      | None => map_get_loop h p key (S i) n'
      end
  end.
(** argus_map_get (69-93) *)
Definition argus_map_get (a : argus) (path : option cstr) (key : cstr) : res (uval * argus) :=
  let a := set_err a 0 in
  let* r := lookup_option a path in
  match r with
  | None => Ok (VNull, set_err a E_NO_VALUE)
  | Some o =>
      if negb (has (d_vtype (decl_of o)) VT_MAP) then
        Ok (VNull, set_err a E_INVALID_TYPE)
      else
        let* x := map_get_loop (a_heap a) (value o) key O (value_count o) in
        match x with
        | Some v => Ok (v, a)
        | None => Ok (VNull, set_err a E_INVALID_KEY)
        end
  end.

(** Iterators (types.h 150-171): [it_base] is _array or _map *)
Record array_it := ArrayIt { it_base : uval; it_count : nat; it_pos : nat; it_value : uval }.
Record map_it := MapIt { mt_base : uval; mt_count : nat; mt_pos : nat; mt_key : uval; mt_value : uval }.

(** argus_array_it (95-107) *)
Definition argus_array_it (a : argus) (path : option cstr) : res array_it :=
  let* r := lookup_option a path in
  Ok (match r with
      | Some o =>
          if has (d_vtype (decl_of o)) (N.lor VT_ARRAY VT_VARIADIC)
          then ArrayIt (value o) (value_count o) O VNull
          else ArrayIt VNull O O VNull
      | None => ArrayIt VNull O O VNull
      end).
(** argus_array_next (109-116); [None] = the iterator pointer is NULL *)
Definition argus_array_next (h : heap) (it : option array_it) : res (bool * option array_it) :=
  match it with
  | None => Ok (false, None)
  | Some it =>
      if (it_count it <=? it_pos it)%nat then Ok (false, Some it)
      else
        let* cs := deref_arr (it_base it) h in
        let* x := cell cs (it_pos it) in
        Ok (true, Some (ArrayIt (it_base it) (it_count it) (S (it_pos it)) x))
  end.
(** argus_array_reset (118-122) *)
Definition argus_array_reset (it : option array_it) : option array_it :=
  match it with
  | None => None
  | Some it => Some (ArrayIt (it_base it) (it_count it) O (it_value it))
  end.
(** argus_map_it (124-136) *)
Definition argus_map_it (a : argus) (path : option cstr) : res map_it :=
  let* r := lookup_option a path in
  Ok (match r with
      | Some o =>
          if has (d_vtype (decl_of o)) VT_MAP
          then MapIt (value o) (value_count o) O VNull VNull
          else MapIt VNull O O VNull VNull
      | None => MapIt VNull O O VNull VNull
      end).
(** argus_map_next (138-149) *)
Definition argus_map_next (h : heap) (it : option map_it) : res (bool * option map_it) :=
  match it with
  | None => Ok (false, None)
  | Some it =>
      if (mt_count it <=? mt_pos it)%nat then Ok (false, Some it)
      else
        let* cs := deref_map (mt_base it) h in
        let* kv := cell cs (mt_pos it) in
        Ok (true, Some (MapIt (mt_base it) (mt_count it) (S (mt_pos it)) (fst kv) (snd kv)))
  end.
(** argus_map_reset (151-155) *)
Definition argus_map_reset (it : option map_it) : option map_it :=
  match it with
  | None => None
  | Some it => Some (MapIt (mt_base it) (mt_count it) O (mt_key it) (mt_value it))
  end.

(** argus_strerror (source/core/error.c 12-62) *)
Definition argus_strerror (e : Z) : cstr :=
  if e =? SUCCESS then $"Success"
  else if e =? SHOULD_EXIT then $"Should exit"
  else if e =? E_DUPLICATE_OPTION then $"Duplicate option"
  else if e =? E_INVALID_HANDLER then $"Invalid handler"
  else if e =? E_INVALID_DEFAULT then $"Invalid default value"
  else if e =? E_INVALID_GROUP then $"Invalid group"
  else if e =? E_INVALID_DEPENDENCY then $"Invalid dependency"
  else if e =? E_INVALID_FLAG then $"Invalid flag"
  else if e =? E_INVALID_POSITION then $"Invalid position"
  else if e =? E_INVALID_ARGUMENT then $"Invalid argument"
  else if e =? E_MISSING_VALUE then $"Missing value"
  else if e =? E_MISSING_REQUIRED then $"Missing required option"
  else if e =? E_CONFLICTING_OPTIONS then $"Conflicting options"
  else if e =? E_INVALID_FORMAT then $"Invalid format"
  else if e =? E_EXCLUSIVE_GROUP then $"Exclusive group"
  else if e =? E_INVALID_CHOICE then $"Invalid choice"
  else if e =? E_INVALID_RANGE then $"Invalid range"
  else if e =? E_NO_COMMAND then $"No command"
  else if e =? E_INVALID_VALUE then $"Invalid value"
  else if e =? E_MALFORMED_OPTION then $"Malformed option"
  else if e =? E_MISSING_HELP then $"Missing help option"
  else if e =? E_STACK_OVERFLOW then $"Error stack overflow"
  else $"Unknown error".
