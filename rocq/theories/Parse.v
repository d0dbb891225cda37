(** * Validators, lookup, command-line parsing, environment, post-validation *)
From Verif Require Export Handlers.

(** ** Validators (source/callbacks/validators)

    A validator returns a status and, on failure, the diagnostic it prints.
    Its argument is a [void *]: the option (post) or the text (pre). *)
Inductive varg := ArgOption (o : opt) | ArgText (s : option cstr).

(** "Range is invalid %" PRId64 "-%" PRId64 *)
Definition range_message (min max : Z) : message := [MText $"Range is invalid "; MInt min; MText $"-"; MInt max].
(** "... is out of range %" PRId64 "-%" PRId64 *)
Definition outside_message (what : cstr) (x min max : Z) : message :=
  [MText what; MInt x; MText $" is out of range "; MInt min; MText $"-"; MInt max].
Definition NEGATIVE_RANGE : message := [MText $"Range is negative"].

(** range_validator.c 17-35 *)
Definition range_validator (min max : Z) (o : opt) : res (Z * list event) :=
  if max <? min then Ok (E_INVALID_RANGE, [EDiag E_INVALID_RANGE (range_message min max)])
  else
    let* x := as_int (value o) in
    if (x <? min) || (max <? x)
    then Ok (E_INVALID_RANGE, [EDiag E_INVALID_RANGE (outside_message $"Value " x min max)])
    else Ok (SUCCESS, []).

(** length_validator.c 19-47 *)
Definition length_validator (min max : Z) (o : opt) (h : heap) : res (Z * list event) :=
  let* z := is_null (value o) in
  if (z : bool) then Ok (E_INVALID_VALUE, [EDiag E_INVALID_VALUE [MText $"Value is NULL"]])
  else if (min <? 0) || (max <? 0) then Ok (E_INVALID_RANGE, [EDiag E_INVALID_RANGE NEGATIVE_RANGE])
  else if max <? min then Ok (E_INVALID_RANGE, [EDiag E_INVALID_RANGE (range_message min max)])
  else
    let* s := deref_str (value o) h in
    let len := Z.of_nat (length s) in
    if (len <? min) || (max <? len)
    then Ok (E_INVALID_RANGE, [EDiag E_INVALID_RANGE (outside_message $"Value length " len min max)])
    else Ok (SUCCESS, []).

(** count_validator.c 18-42 *)
Definition count_validator (min max : Z) (o : opt) : res (Z * list event) :=
  if (min <? 0) || (max <? 0) then Ok (E_INVALID_RANGE, [EDiag E_INVALID_RANGE NEGATIVE_RANGE])
  else if max <? min then Ok (E_INVALID_RANGE, [EDiag E_INVALID_RANGE (range_message min max)])
  else
    let count := Z.of_nat (value_count o) in
    if (count <? min) || (max <? count)
    then Ok (E_INVALID_RANGE, [EDiag E_INVALID_RANGE (outside_message $"Values count " count min max)])
    else Ok (SUCCESS, []).

(** The message of the choices validators; the allocation of the list of choices is taken to
    succeed. *)
Definition choice_message (x : piece) (f : vfun) : message :=
  [MText $"Value '"; x; MText $"' is not one of ["; MChoices f; MText $"]"].
(** choices_string_validator (choices_validator.c 22-41): with no choices the
    value is not read by the loop but by the diagnostic. *)
Definition choices_string_validator (l : list cstr) (o : opt) (h : heap)
  : res (Z * list event) :=
  let* s := deref_str (value o) h in
  if existsb (fun c => strcmp s c =? 0) l then Ok (SUCCESS, [])
  else Ok (E_INVALID_CHOICE, [EDiag E_INVALID_CHOICE (choice_message (MStr (Some s)) (VChoicesStr l))]).
(** choices_int_validator (choices_validator.c 43-63) *)
Definition choices_int_validator (l : list Z) (o : opt) : res (Z * list event) :=
  let* x := as_int (value o) in
  if existsb (fun c => x =? c) l then Ok (SUCCESS, [])
  else Ok (E_INVALID_CHOICE, [EDiag E_INVALID_CHOICE (choice_message (MInt x) (VChoicesInt l))]).
(** choices_float_validator (choices_validator.c 65-85) *)
Definition choices_float_validator (l : list Z) (o : opt) : res (Z * list event) :=
  let* x := as_float (value o) in
  if existsb (fun c => feq x c) l then Ok (SUCCESS, [])
  else Ok (E_INVALID_CHOICE, [EDiag E_INVALID_CHOICE (choice_message (MFloat x) (VChoicesFloat l))]).

(** regex_validator.c 31-85 *)
Definition regex_validator `{Libc} (pattern hint : option cstr) (v : option cstr)
  : res (Z * list event) :=
  if negb regex_enabled
  then Ok (E_INVALID_VALUE, [EDiag E_INVALID_VALUE [MText $"regex support is not available"]])
  else
    match pattern with
    | None => Ok (E_INVALID_VALUE, [EDiag E_INVALID_VALUE [MText $"Regular expression pattern is NULL"]])
    | Some p =>
        match v with
        | None =>
            (* pcre2_match refuses a null subject whose length is not 0: PCRE2_ERROR_NULL, -51 *)
            Ok (E_INVALID_FORMAT, [EDiag E_INVALID_FORMAT
              match regex_match p [] with
              | RxBadPattern => [MText $"Failed to compile regex '"; MStr (Some p); MText $"': "; MPcre p]
              | _ => [MText $"Internal error: Regex match failed with error code "; MInt (-51)]
              end])
        | Some s =>
            match regex_match p s with
            | RxBadPattern =>
                Ok (E_INVALID_FORMAT, [EDiag E_INVALID_FORMAT
                  [MText $"Failed to compile regex '"; MStr (Some p); MText $"': "; MPcre p]])
            | RxMatch => Ok (SUCCESS, [])
            | RxNoMatch =>
                Ok (E_INVALID_VALUE, [EDiag E_INVALID_VALUE
                  match hint with
                  | Some (c :: h) =>
                      [MText $"Value '"; MStr (Some s); MText $"' does not match required pattern: "; MStr (Some (c :: h))]
                  | _ => [MText $"Value '"; MStr (Some s); MText $"' does not match the expected format"]
                  end])
            | RxError =>
                Ok (E_INVALID_FORMAT, [EDiag E_INVALID_FORMAT
                  [MText $"Internal error: Regex match failed with error code "; MPcre p]])
            end
        end
    end.

(** [validator->func(argus, arg, validator->data)]; a validator given the wrong
    kind of argument is a type confusion.  User validators print nothing. *)
Definition run_validator `{Libc} (f : vfun) (arg : varg) (h : heap) : res (Z * list event) :=
  match f, arg with
  | VRange a b, ArgOption o => range_validator a b o
  | VLength a b, ArgOption o => length_validator a b o h
  | VCount a b, ArgOption o => count_validator a b o
  | VChoicesStr l, ArgOption o => choices_string_validator l o h
  | VChoicesInt l, ArgOption o => choices_int_validator l o
  | VChoicesFloat l, ArgOption o => choices_float_validator l o
  | VCustomPost f, ArgOption o => Ok (f (value o) (value_count o), [])
  | VRegex p hint, ArgText s => regex_validator p hint s
  | VCustomPre f, ArgText s => Ok (f s, [])
  | _, _ => UB TypeConfusion
  end.

(** The loop over option->validators that runs those of one order and stops at
    the first failure: execute_callbacks.c 26-33, post_parse_validation.c 53-60. *)
Definition is_order (o : vorder) (e : ventry) : bool :=
  match o, v_order e with
  | ORDER_PRE, ORDER_PRE | ORDER_POST, ORDER_POST => true
  | _, _ => false
  end.
Fixpoint run_validators `{Libc} (ord : vorder) (l : list ventry) (arg : varg) (h : heap)
  : res (Z * list event) :=
  match l with
  | [] => Ok (SUCCESS, [])
  | e :: l' =>
      if is_order ord e then
        let* (st, ev) := run_validator (v_fun e) arg h in
        if st =? SUCCESS then
          let* (st', ev') := run_validators ord l' arg h in Ok (st', ev ++ ev')
        else Ok (st, ev)
      else run_validators ord l' arg h
  end.

(** ** source/utils/option_lookup.c *)

Fixpoint find_index {A} (p : A -> bool) (l : list A) : option nat :=
  match l with
  | [] => None
  | x :: l' => if p x then Some O
               else match find_index p l' with Some n => Some (S n) | None => None end
  end.

Definition is_type (t : optype) (o : opt) : bool := bool_decide (d_type (decl_of o) = t).

(** find_option_by_lname (option_lookup.c 16-26) *)
Definition find_option_by_lname (T : list opt) (lname : cstr) : option nat :=
  find_index (fun o => is_type TOption o &&
     match d_lname (decl_of o) with Some n => strcmp n lname =? 0 | None => false end) T.

(** find_option_by_sname (option_lookup.c 28-35) *)
Definition find_option_by_sname (T : list opt) (c : ascii) : option nat :=
  find_index (fun o => is_type TOption o && Ascii.eqb (d_sname (decl_of o)) c) T.

(** find_positional (option_lookup.c 37-49); [pos_index] counts down to 0:
    [k = position - pos_index]. *)
Fixpoint find_positional (T : list opt) (k : nat) : option nat :=
  match T with
  | [] => None
  | o :: T' =>
      if is_type TPositional o then
        if has (d_vtype (decl_of o)) VT_VARIADIC || (k =? 0)%nat then Some O
        else match find_positional T' (k - 1) with Some n => Some (S n) | None => None end
      else match find_positional T' k with Some n => Some (S n) | None => None end
  end.

(** find_option_by_name (option_lookup.c 51-59) *)
Definition find_option_by_name (T : list opt) (name : cstr) : option nat :=
  find_index (fun o => match d_name (decl_of o) with
                       | Some n => strcmp n name =? 0
                       | None => false
                       end) T.

(** The sub_options table of an entry of the command stack. *)
Definition sub_of (a : argus) (r : nat * nat) : res (option nat) :=
  let* o := get_option a (fst r) (snd r) in Ok (d_sub (decl_of o)).

(** get_active_options (option_lookup.c 61-69) *)
Definition get_active_options (a : argus) : res (option nat) :=
  match last (a_stack a) with
  | Some r => sub_of a r
  | None => Ok (Some (a_root a))
  end.

(** find_from_relative_path (option_lookup.c 71-86): innermost first;
    [stk] is the command stack, innermost entry first. *)
Fixpoint find_from_relative (a : argus) (stk : list (nat * nat)) (name : cstr)
  : res (option (nat * nat)) :=
  match stk with
  | [] =>
      let* T := table a (a_root a) in
      Ok (match find_option_by_name T name with Some i => Some (a_root a, i) | None => None end)
  | r :: stk' =>
      let* s := sub_of a r in
      let* T := table_ptr s a in
      match find_option_by_name T name, s with
      | Some i, Some t => Ok (Some (t, i))
      | _, _ => find_from_relative a stk' name
      end
  end.

Definition dot : ascii := "."%char.
(** count_components (option_lookup.c 88-97) *)
Fixpoint count_components (path : cstr) : nat :=
  match path with
  | [] => O
  | c :: p' => if Ascii.eqb c dot then S (count_components p') else count_components p'
  end.

(** the loop of find_option_by_active_path (option_lookup.c 119-131): [stk] the
    entries subcommand_stack[i..], [n] iterations left, [t] the table reached;
    None = a component does not match *)
Fixpoint walk_path (a : argus) (stk : list (nat * nat)) (component : cstr) (t : option nat)
    (n : nat) : res (option (option nat * cstr)) :=
  match n with
  | O => Ok (Some (t, component))
  | S n' =>
      match strchr component dot with
      | None => Ok (Some (t, component))
      | Some len =>
          match stk with
          | [] => UB OutOfBounds
          | r :: stk' =>
              let* o := get_option a (fst r) (snd r) in
              match d_name (decl_of o) with
              | None => UB NullDeref
              | Some command =>
                  if strncmp component command len =? 0 then
                    walk_path a stk' (drop (S len) component) (d_sub (decl_of o)) n'
                  else Ok None
              end
          end
      end
  end.

(** find_option_by_active_path (option_lookup.c 99-134) *)
Definition find_option_by_active_path (a : argus) (path : option cstr)
  : res (option (nat * nat)) :=
  match path with
  | None => Ok None
  | Some p =>
      match strchr p dot with
      | None => find_from_relative a (rev (a_stack a)) p
      | Some O =>
          let* T := table a (a_root a) in
          Ok (match find_option_by_name T (drop 1 p) with
              | Some i => Some (a_root a, i) | None => None end)
      | Some (S _) =>
          let n := count_components p in
          if (length (a_stack a) <? n)%nat then Ok None
          else
            let* w := walk_path a (a_stack a) p (Some (a_root a)) n in
            match w with
            | None => Ok None
            | Some (t, component) =>
                let* T := table_ptr t a in
                match find_option_by_name T component, t with
                | Some i, Some t' => Ok (Some (t', i))
                | _, _ => Ok None
                end
            end
      end
  end.

(** ** execute_callbacks (execute_callbacks.c 15-47) *)
Definition execute_callbacks `{Libc} (a : argus) (t i : nat) (v : option cstr)
  : res (Z * argus) :=
  let* o := get_option a t i in
  match d_handler (decl_of o) with
  | None =>
      Ok (E_INVALID_HANDLER, diag E_INVALID_HANDLER [MText $"Option "; MStr (d_name (decl_of o)); MText $" has no handler"] a)
  | Some f =>
      let* (st, ev) :=
        match d_validators (decl_of o) with
        | None => Ok (SUCCESS, [])
        | Some l => run_validators ORDER_PRE l (ArgText v) (a_heap a)
        end in
      let a1 := apply_events a ev in
      if negb (st =? SUCCESS) then Ok (st, a1)
      else
        let* act := get_active_options a1 in
        let active := default (a_root a1) act in
        let* (st, s) := run_handler active f v (Hst o (a_heap a1) []) in
        let a2 := apply_events (set_heap (put_option a1 t i (h_opt s)) (h_heap s)) (h_log s) in
        if negb (st =? SUCCESS) then Ok (st, a2)
        else
          let* o2 := get_option a2 t i in
          let o3 := with_set o2 true in
          let o4 := if (value_count o3 =? 0)%nat then with_count o3 1 else o3 in
          let a3 := put_option a2 t i o4 in
          if has (d_flags (decl_of o4)) FLAG_EXIT then Ok (SHOULD_EXIT, a3)
          else Ok (SUCCESS, a3)
  end.

(** ** Parsing of the command line (source/core/parsing) *)

(** safe_strncpy into option_name[64] (option_handle_long.c 22-27,
    cross_platform.h 76-86): at most 63 bytes are kept. *)
Definition OPTION_NAME_MAX : nat := 63.
Definition long_option_name (arg : cstr) : cstr :=
  match strchr arg equal_sign with
  | Some n => take (Nat.min n OPTION_NAME_MAX) arg
  | None => take OPTION_NAME_MAX arg
  end.

(** Result of handling one word: status, whether the next argument was consumed,
    and the new state. *)
Definition step := (Z * bool * argus)%type.

(** handle_long_option (option_handle_long.c 19-51); [next] = argv[i+1] if any *)
Definition handle_long_option `{Libc} (a : argus) (t : nat) (arg : cstr) (next : option cstr)
  : res step :=
  let* T := table a t in
  match find_option_by_lname T (long_option_name arg) with
  | None =>
      Ok (E_INVALID_ARGUMENT, false, diag E_INVALID_ARGUMENT
        [MText $"Unknown option: '--"; MStr (Some (long_option_name arg)); MText $"'"] a)
  | Some i =>
      let* o := cell T i in
      if (d_vtype (decl_of o) =? VT_FLAG)%N then
        let* (st, a') := execute_callbacks a t i None in Ok (st, false, a')
      else
        match strchr arg equal_sign, next with
        | Some n, _ =>
            let* (st, a') := execute_callbacks a t i (Some (drop (S n) arg)) in
            Ok (st, false, a')
        | None, Some v =>
            let* (st, a') := execute_callbacks a t i (Some v) in Ok (st, true, a')
        | None, None =>
            Ok (E_MISSING_VALUE, false, diag E_MISSING_VALUE
              [MText $"Missing value for option: '--"; MStr (Some (long_option_name arg)); MText $"'"] a)
        end
  end.

(** handle_short_option (option_handle_short.c 18-54); [arg] is arg + i *)
Fixpoint handle_short_option `{Libc} (a : argus) (t : nat) (arg : cstr) (next : option cstr)
  : res step :=
  match arg with
  | [] => Ok (SUCCESS, false, a)
  | c :: arg' =>
      let* T := table a t in
      match find_option_by_sname T c with
      | None =>
          Ok (E_INVALID_ARGUMENT, false, diag E_INVALID_ARGUMENT [MText $"Unknown option: '-"; MChr c; MText $"'"] a)
      | Some i =>
          let* o := cell T i in
          if (d_vtype (decl_of o) =? VT_FLAG)%N then
            let* (st, a') := execute_callbacks a t i None in
            if st =? SUCCESS then handle_short_option a' t arg' next
            else Ok (st, false, a')
          else
            match arg', next with
            | _ :: _, _ =>
                let* (st, a') := execute_callbacks a t i (Some arg') in Ok (st, false, a')
            | [], Some v =>
                let* (st, a') := execute_callbacks a t i (Some v) in Ok (st, true, a')
            | [], None =>
                Ok (E_MISSING_VALUE, false, diag E_MISSING_VALUE
                  [MText $"Missing value for option: '-"; MChr c; MText $"'"] a)
            end
      end
  end.

(** handle_positional (option_handle_positional.c 17-26) *)
Definition handle_positional `{Libc} (a : argus) (t : nat) (v : cstr) (position : nat)
  : res (Z * argus) :=
  let* T := table a t in
  match find_positional T position with
  | None => Ok (E_INVALID_ARGUMENT, diag E_INVALID_ARGUMENT [MText $"Unknown positional: '"; MStr (Some v); MText $"'"] a)
  | Some i => execute_callbacks a t i (Some v)
  end.

(** find_subcommand (parse_args.c 18-43): [found] is the candidate so far, [i] the
    index of the head of [T]. *)
Inductive sub_result := SubNone | SubFound (i : nat) | SubAmbiguous (i j : nat).
Fixpoint find_subcommand_loop (T : list opt) (name : cstr) (found : option nat) (i : nat)
  : sub_result :=
  match T with
  | [] => match found with Some j => SubFound j | None => SubNone end
  | o :: T' =>
      if is_type TSubcommand o &&
         match starts_with (Some name) (d_name (decl_of o)) with Some _ => true | None => false end
      then
        match found with
        | Some j => SubAmbiguous j i
        | None =>
            if match d_name (decl_of o) with Some n => strcmp name n =? 0 | None => false end
            then SubFound i
            else find_subcommand_loop T' name (Some i) (S i)
        end
      else find_subcommand_loop T' name found (S i)
  end.
Definition find_subcommand (T : list opt) (name : cstr) : sub_result :=
  find_subcommand_loop T name None O.

(** handle_subcommand (option_handle_subcommand.c 13-19) up to the recursive call *)
Definition enter_subcommand (a : argus) (t i : nat) : res (option nat * argus) :=
  let* o := get_option a t i in
  let a1 := put_option a t i (with_set o true) in
  if (MAX_SUBCOMMAND_DEPTH <=? length (a_stack a))%nat then UB OutOfBounds
  else Ok (d_sub (decl_of o), set_stack a1 (a_stack a ++ [(t, i)])).

Definition is_negative_number (short_arg : cstr) : bool :=
  match short_arg with
  | c :: rest =>
      isdigit c || (Ascii.eqb c dot && match rest with d :: _ => isdigit d | [] => false end)
  | [] => false
  end.

(** The message of find_subcommand (parse_args.c 26-32). *)
Definition line_feed : ascii := "010"%char.
Definition ambiguous_message (name : cstr) (d d' : decl) : message :=
  [MText $"'"; MStr (Some name); MText ($"' is ambigous and could match:" ++ [line_feed] ++ $"  '"); MStr (d_name d);
   MText $"' - "; MStr (d_help d); MText ([line_feed] ++ $"  '"); MStr (d_name d'); MText $"' - "; MStr (d_help d')].

(** parse_args (parse_args.c 45-109).  [tp] = the table pointer [options];
    [pos] = positional_index; [only] = only_positional. *)
Fixpoint parse_args `{Libc} (a : argus) (tp : option nat) (pos : nat) (only : bool)
    (argv : list cstr) : res (Z * argus) :=
  match argv with
  | [] => Ok (SUCCESS, a)
  | arg :: rest =>
      if strcmp arg ($"--") =? 0 then parse_args a tp pos true rest
      else
        match tp with
        | None => UB NullDeref
        | Some t =>
            if only then
              let* (st, a') := handle_positional a t arg pos in
              if st =? SUCCESS then parse_args a' tp (S pos) only rest else Ok (st, a')
            else
              match starts_with (Some ($"--")) (Some arg) with
              | Some long_arg =>
                  let* (st, used, a') := handle_long_option a t long_arg (head rest) in
                  if st =? SUCCESS then
                    match rest with
                    | _ :: rest' => if (used : bool) then parse_args a' tp pos only rest'
                                    else parse_args a' tp pos only rest
                    | [] => Ok (SUCCESS, a')
                    end
                  else Ok (st, a')
              | None =>
                  match starts_with (Some ($"-")) (Some arg) with
                  | Some short_arg =>
                      let* T := table a t in
                      let numeric :=
                        is_negative_number short_arg &&
                        match find_positional T pos with
                        | Some i =>
                            match T !! i with
                            | Some o => has (d_vtype (decl_of o)) VT_ANY_NUMERIC
                            | None => false
                            end
                        | None => false
                        end in
                      if numeric then
                        let* (st, a') := handle_positional a t arg pos in
                        if st =? SUCCESS then parse_args a' tp (S pos) only rest
                        else Ok (st, a')
                      else
                        let* (st, used, a') := handle_short_option a t short_arg (head rest) in
                        if st =? SUCCESS then
                          match rest with
                          | _ :: rest' => if (used : bool) then parse_args a' tp pos only rest'
                                          else parse_args a' tp pos only rest
                          | [] => Ok (SUCCESS, a')
                          end
                        else Ok (st, a')
                  | None =>
                      let* T := table a t in
                      match find_subcommand T arg with
                      | SubAmbiguous i j =>
                          let* o := cell T i in
                          let* o' := cell T j in
                          Ok (E_AMBIGUOUS_SUBCOMMAND, diag E_AMBIGUOUS_SUBCOMMAND
                            (ambiguous_message arg (decl_of o) (decl_of o')) a)
                      | SubFound i =>
                          let* (sub, a') := enter_subcommand a t i in
                          parse_args a' sub O false rest
                      | SubNone =>
                          let* (st, a') := handle_positional a t arg pos in
                          if st =? SUCCESS then parse_args a' tp (S pos) only rest
                          else Ok (st, a')
                      end
                  end
              end
        end
  end.

(** ** Environment variables (load_env_vars.c) *)

(** get_env_var_name (load_env_vars.c 27-66) *)
Definition underscore : ascii := "_"%char.
Definition env_upper (c : ascii) : ascii :=
  if Ascii.eqb c "-" then underscore else toupper c.
Definition get_env_var_name (prefix_opt : option cstr) (d : decl) : option cstr :=
  let prefix := default [] prefix_opt in
  let needs_underscore :=
    match last prefix with Some c => negb (Ascii.eqb c underscore) | None => false end in
  match d_env_name d with
  | Some env =>
      if has (d_flags d) FLAG_NO_ENV_PREFIX then Some env
      else if match prefix_opt with
              | Some p => strncmp env p (length p) =? 0
              | None => false
              end
      then Some env
      else if needs_underscore then Some (snprintf 128 (prefix ++ [underscore] ++ env))
      else Some (snprintf 128 (prefix ++ env))
  | None =>
      if has (d_flags d) FLAG_AUTO_ENV then
        let name := match d_name d with
                    | Some n => n
                    | None => default [] (d_lname d)
                    end in
        let full :=
          if has (d_flags d) FLAG_NO_ENV_PREFIX then snprintf 128 name
          else if needs_underscore then snprintf 128 (prefix ++ [underscore] ++ name)
          else snprintf 128 (prefix ++ name) in
        Some (map env_upper full)
      else None
  end.

(** load_env (load_env_vars.c 68-101): the loop over table [t] from index [i] on,
    [n] entries left. *)
Fixpoint load_env_from `{Libc} (a : argus) (t i n : nat) : res (Z * argus) :=
  match n with
  | O => Ok (SUCCESS, a)
  | S n' =>
      let* o := get_option a t i in
      if is_type TGroup o || is_type TSubcommand o then load_env_from a t (S i) n'
      else if is_set o && negb (has (d_flags (decl_of o)) FLAG_ENV_OVERRIDE)
      then load_env_from a t (S i) n'
      else
        match get_env_var_name (a_prefix a) (decl_of o) with
        | None => load_env_from a t (S i) n'
        | Some name =>
            match getenv name with
            | None => load_env_from a t (S i) n'
            | Some v =>
                let* (st, a') := execute_callbacks a t i (Some v) in
                if st =? SUCCESS then load_env_from a' t (S i) n'
                else if is_set o then
                  let* o' := get_option a' t i in
                  Ok (st, put_option a' t i (with_value (with_set o' true) (value o)))
                else Ok (st, a')
            end
        end
  end.
Definition load_env `{Libc} (a : argus) (t : nat) : res (Z * argus) :=
  let* T := table a t in load_env_from a t O (length T).

(** load_env_vars (load_env_vars.c 111-126): the loop over the command stack *)
Fixpoint load_env_stack `{Libc} (a : argus) (stk : list (nat * nat)) : res (Z * argus) :=
  match stk with
  | [] => Ok (SUCCESS, a)
  | r :: stk' =>
      let* s := sub_of a r in
      match s with
      | None => load_env_stack a stk'
      | Some t =>
          let* (st, a') := load_env a t in
          if st =? SUCCESS then load_env_stack a' stk' else Ok (st, a')
      end
  end.
Definition load_env_vars `{Libc} (a : argus) : res (Z * argus) :=
  let* (st, a') := load_env a (a_root a) in
  if st =? SUCCESS then load_env_stack a' (a_stack a') else Ok (st, a').

(** ** Checks after parsing (post_parse_validation.c) *)

(** validate_required (17-31): the loop over option->require; [name] is the option's *)
Fixpoint validate_required (T : list opt) (name : option cstr) (l : list cstr) : Z * list event :=
  match l with
  | [] => (SUCCESS, [])
  | n :: l' =>
      match find_option_by_name T n with
      | Some i =>
          match T !! i with
          | Some r =>
              if is_set r then validate_required T name l'
              else (E_MISSING_REQUIRED, [EDiag E_MISSING_REQUIRED [MText $"Required option is missing: '"; MStr (Some n);
                      MText $"' with option '"; MStr name; MText $"'"]])
          | None => validate_required T name l'
          end
      | None => validate_required T name l'
      end
  end.
(** validate_conflicts (33-46) *)
Fixpoint validate_conflicts (T : list opt) (name : option cstr) (l : list cstr) : Z * list event :=
  match l with
  | [] => (SUCCESS, [])
  | n :: l' =>
      match find_option_by_name T n with
      | Some i =>
          match T !! i with
          | Some r =>
              if is_set r
              then (E_CONFLICTING_OPTIONS, [EDiag E_CONFLICTING_OPTIONS [MText $"Conflict between '"; MStr name;
                      MText $"' and '"; MStr (d_name (decl_of r)); MText $"'"]])
              else validate_conflicts T name l'
          | None => validate_conflicts T name l'
          end
      | None => validate_conflicts T name l'
      end
  end.

(** call_validators (48-62) *)
Definition call_validators `{Libc} (o : opt) (h : heap) : res (Z * list event) :=
  match d_validators (decl_of o) with
  | None => Ok (SUCCESS, [])
  | Some l => run_validators ORDER_POST l (ArgOption o) h
  end.

(** validate_options_set (64-114): [T] the whole table, [l] the entries left, [group] =
    group_name, [excl] = current_group_is_exclusive, [first] = first_set_option_name. *)
Fixpoint validate_options_set `{Libc} (h : heap) (T l : list opt) (group : option cstr) (excl : bool)
    (first : option cstr) : res (Z * list event) :=
  match l with
  | [] => Ok (SUCCESS, [])
  | o :: l' =>
      let d := decl_of o in
      if is_type TGroup o then
        validate_options_set h T l' (d_name d) (has (d_flags d) FLAG_EXCLUSIVE) None
      else if is_type TPositional o && has (d_flags d) FLAG_REQUIRED && negb (is_set o) then
        Ok (E_MISSING_REQUIRED, [EDiag E_MISSING_REQUIRED
          [MText $"Required positional argument missing: '"; MStr (d_name d); MText $"'"]])
      else if is_set o then
        if excl && match first with Some _ => true | None => false end then
          Ok (E_EXCLUSIVE_GROUP, [EDiag E_EXCLUSIVE_GROUP [MText $"Exclusive options group '"; MStr group;
            MText $"' conflict: '"; MStr first; MText $"' and '"; MStr (d_name d); MText $"'"]])
        else
          let first' := if excl then d_name d else first in
          let* (st, ev) := call_validators o h in
          if negb (st =? SUCCESS) then Ok (st, ev)
          else
            let (st, ev1) := match d_require d with
                             | Some r => validate_required T (d_name d) r | None => (SUCCESS, []) end in
            if negb (st =? SUCCESS) then Ok (st, ev ++ ev1)
            else
              let (st, ev2) := match d_conflict d with
                               | Some c => validate_conflicts T (d_name d) c | None => (SUCCESS, []) end in
              if negb (st =? SUCCESS) then Ok (st, ev ++ ev2)
              else
                let* (st', ev') := validate_options_set h T l' group excl first' in
                Ok (st', ev ++ ev')
      else validate_options_set h T l' group excl first
  end.

(** validate_options_set on one table of the context *)
Definition validate_table `{Libc} (a : argus) (tp : option nat) : res (Z * argus) :=
  let* T := table_ptr tp a in
  let* (st, ev) := validate_options_set (a_heap a) T T None false None in
  Ok (st, apply_events a ev).

(** post_parse_validation (116-132) *)
Fixpoint validate_stack `{Libc} (a : argus) (stk : list (nat * nat)) : res (Z * argus) :=
  match stk with
  | [] => Ok (SUCCESS, a)
  | r :: stk' =>
      let* s := sub_of a r in
      let* (st, a') := validate_table a s in
      if st =? SUCCESS then validate_stack a' stk' else Ok (st, a')
  end.
Definition post_parse_validation `{Libc} (a : argus) : res (Z * argus) :=
  let* (st, a') := validate_table a (Some (a_root a)) in
  if st =? SUCCESS then validate_stack a' (a_stack a') else Ok (st, a').
