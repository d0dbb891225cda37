(** * What the structure check prints

    [Validate.v] has the status of each function of source/core/validation; here is what they
    write to standard error with ARGUS_STRUCT_ERROR, in the order in which it is written.  That
    the two agree (something is written exactly if the status is not ARGUS_SUCCESS) is proved.
    The message for an entry of unknown type (validate_structure.c 181-183) is left out: in the
    model every entry has one of the four types. *)
From Verif Require Export Validate Messages.

(** One call of ARGUS_STRUCT_ERROR: the table, the position of the entry in it (the position
    after the last entry is that of OPTION_END) and the formatted text *)
Record report := Report { r_tab : nat; r_at : nat; r_text : cstr }.

Section reports.
Context `{Libc} (pcre : cstr -> cstr) (p : program).
(** The fields [file] and [line] of each entry (ARGUS_DEBUG_INFO, options.h 69-73): [None] is NULL *)
Context (file_of : nat -> nat -> option cstr) (line_of : nat -> nat -> Z).

Definition if_then (b : bool) (m : cstr) : list cstr := if b then [m] else [].

(** ** validate_structure.c *)

(** One iteration of validate_placement (29-75); [s] is the state before it *)
Definition placement_says (s : placement) (o : opt) : list cstr :=
  let d := decl_of o in
  let s' := placement_step s o in
  let pos_required := type_is TPositional d && has (d_flags d) FLAG_REQUIRED in
  let variadic := has (d_vtype d) VT_VARIADIC in
  if_then (pos_required && variadic && p_many s) ($"Only one POSITIONAL_MANY argument is allowed") ++
  if_then (pos_required && negb variadic && p_many s)
    ($"POSITIONAL argument must be placed before POSITIONAL_MANY argument") ++
  if_then (p_opt_pos s' && p_many s') ($"Cannot mix optional positional and POSITIONAL_MANY arguments") ++
  if_then (type_is TOption d && p_sub s')
    ($"Options should be placed at the top level, before any subcommands") ++
  if_then (p_sub s' && p_pos s') ($"Cannot mix subcommands and positional arguments at the same level") ++
  if_then (pos_required && p_opt_pos s')
    ($"Required positional must be before all optional positional arguments").
(** validate_placement (20-80) from entry [i] on *)
Fixpoint placement_reports (s : placement) (i : nat) (l : list opt) : list (nat * cstr) :=
  match l with
  | [] => if p_help s then [] else [(O, $"Help option is missing")]
  | o :: l' => map (pair i) (placement_says s o) ++ placement_reports (placement_step s o) (S i) l'
  end.

(** lname_is_unique (82-102): the entries from position [j] on, in table [t] *)
Fixpoint unique_says (t : nat) (n : cstr) (j : nat) (later : list opt) : list cstr :=
  match later with
  | [] => []
  | o :: later' =>
      if_then (str_is (d_name (decl_of o)) n) ($"Name conflict with option line: " ++ dec (line_of t j)) ++
      if_then (str_is (d_lname (decl_of o)) n) ($"Long name conflict with option line: " ++ dec (line_of t j)) ++
      unique_says t n (S j) later'
  end.
(** One iteration of validate_naming (109-153) *)
Definition naming_says (t i : nat) (o : opt) (later : list opt) (used : list ascii) : list cstr :=
  let d := decl_of o in
  let sn := d_sname d in
  if_then (match d_name d with Some n => is_empty n | None => true end && negb (type_is TGroup d))
    ($"Option name cannot be empty") ++
  if_then (Ascii.eqb sn space_char) ($"Short name cannot be a space character") ++
  if_then (Ascii.eqb sn hyphen) ($"Short name cannot be a hyphen") ++
  if_then (negb (Ascii.eqb sn NUL) && existsb (Ascii.eqb sn) used)
    ($"Short name '" ++ [sn] ++ $"' is already used") ++
  match d_lname d with
  | None => []
  | Some l =>
      if_then (first_is l hyphen) ($"Long name cannot start with a hyphen") ++
      if_then (contains l space_char) ($"Long name cannot contain spaces") ++
      if_then (contains l dot) ($"Long name cannot contain dots") ++
      if_then (is_empty l) ($"Long name cannot be empty") ++
      unique_says t l (S i) later
  end.
(** validate_naming (104-155) from entry [i] on *)
Fixpoint naming_reports (t i : nat) (l : list opt) (used : list ascii) : list (nat * cstr) :=
  match l with
  | [] => []
  | o :: l' =>
      map (pair i) (naming_says t i o l' used) ++
      naming_reports t (S i) l' (if Ascii.eqb (d_sname (decl_of o)) NUL then used else d_sname (decl_of o) :: used)
  end.

(** ** validate_containers.c *)

(** validate_subcommand (14-59) *)
Definition subcommand_says (d : decl) : list cstr :=
  if_then (negb (isSome (d_name d))) ($"Subcommand must have a name") ++
  if_then (negb (isSome (d_help d))) ($"Subcommand must have a help message") ++
  if_then (negb (isSome (d_sub d))) ($"Subcommand must have options") ++
  if_then (has_other (d_flags d) SUBCOMMAND_FLAG_MASK) ($"Invalid flags for subcommand") ++
  if_then (isSome (d_handler d)) ($"Subcommand cannot have a handler") ++
  if_then (isSome (d_require d) || isSome (d_conflict d)) ($"Subcommand cannot have dependencies") ++
  if_then (d_have_default d) ($"Subcommand cannot have a default value") ++
  if_then (isSome (d_validators d)) ($"Subcommand cannot have validators").
(** validate_group (61-71) *)
Definition group_says (d : decl) : list cstr :=
  if_then (has_other (d_flags d) GROUP_FLAG_MASK) ($"Group have Invalid flags").

(** ** validate_arguments.c *)

(** What a validator wrote while stderr was redirected, as read_stderr gives it back (stream.c;
    [Stream.v] has the redirection itself, here it is taken to succeed) *)
Fixpoint captured (l : list event) : res cstr :=
  match l with
  | [] => Ok []
  | EDiag _ m :: l' => let* t := error_line pcre p m in let* r := captured l' in Ok (t ++ r)
  | _ :: l' => captured l'
  end.
(** The loop of validate_default_value (25-46); see [default_validators] *)
Fixpoint default_validators_say (o : opt) (h : heap) (l : list ventry) (st : Z) : res (list cstr) :=
  match l with
  | [] => Ok []
  | e :: l' =>
      let* (r, ev) :=
        match v_order e with
        | ORDER_PRE =>
            if (d_vtype (decl_of o) =? VT_STRING)%N then
              let* s := read_str h (d_default (decl_of o)) in
              run_validator (v_fun e) (ArgText s) h
            else Ok (SUCCESS, [])
        | ORDER_POST => run_validator (v_fun e) (ArgOption o) h
        end in
      let* t := captured ev in
      let st1 := if r =? SUCCESS then st else E_INVALID_DEFAULT in
      if st1 =? SUCCESS then default_validators_say o h l' st1
      else match ev with
           | [] => UB NullDeref
           | _ =>
               let* more := default_validators_say o h l' E_INVALID_DEFAULT in
               Ok (($"Default value does not pass validations: " ++ [newline] ++ ["009"%char] ++ $"    " ++ t) :: more)
           end
  end.
(** validate_default_value (18-49) *)
Definition default_says (o : opt) (h : heap) : res (list cstr) :=
  let d := decl_of o in
  if d_have_default d then
    if (d_vtype d =? VT_FLAG)%N then Ok [$"Option type flag cannot have a default value"]
    else match d_validators d with
         | None => Ok []
         | Some l => default_validators_say o h l SUCCESS
         end
  else Ok [].

(** validate_dependencies (51-91) *)
Definition dependencies_say (T : list opt) (d : decl) : list cstr :=
  let req := default [] (d_require d) in
  let con := default [] (d_conflict d) in
  concat (map (fun r => concat (map (fun c =>
    if_then (strcmp r c =? 0) ($"Option cannot require and conflict with the same option: '" ++ r ++ $"'")) con)) req) ++
  concat (map (fun n => if_then (negb (isSome (find_option_by_name T n)))
    ($"Required option not found '" ++ n ++ $"' in options")) req) ++
  concat (map (fun n => if_then (negb (isSome (find_option_by_name T n)))
    ($"Conflicting option not found '" ++ n ++ $"' in options")) con).
(** validate_option (93-125) *)
Definition option_says (T : list opt) (o : opt) (h : heap) : res (list cstr) :=
  let d := decl_of o in
  let* dv := default_says o h in
  Ok (if_then (Ascii.eqb (d_sname d) NUL && negb (isSome (d_lname d)))
        ($"Option must have a short name or a long name") ++
      if_then (((d_vtype d =? VT_PRIMITIVE)%N && has_other (d_flags d) OPTION_FLAG_MASK) ||
               ((d_vtype d =? VT_ARRAY)%N && has_other (d_flags d) OPTION_ARRAY_FLAG_MASK) ||
               ((d_vtype d =? VT_MAP)%N && has_other (d_flags d) OPTION_MAP_FLAG_MASK))
        ($"Option has invalid flags for its value type") ++
      if_then (negb (isSome (d_help d))) ($"Option must have a help message") ++
      if_then (negb (isSome (d_handler d))) ($"Option must have a handler") ++
      dv ++ dependencies_say T d).
(** validate_positional (127-172) *)
Definition positional_says (o : opt) (h : heap) : res (list cstr) :=
  let d := decl_of o in
  let* dv := default_says o h in
  Ok (if_then (negb (isSome (d_name d))) ($"Positional must have a name") ++
      if_then (negb (isSome (d_help d))) ($"Positional must have a help message") ++
      if_then (has (d_vtype d) VT_VARIADIC && has_other (d_flags d) POSITIONAL_MANY_FLAG_MASK)
        ($"Invalid flags for POSITIONAL_MANY argument") ++
      if_then (has_other (d_flags d) POSITIONAL_FLAG_MASK) ($"Invalid flags for positional") ++
      if_then (negb (isSome (d_handler d))) ($"Positional must have a handler") ++
      if_then (has (d_flags d) FLAG_REQUIRED && d_have_default d)
        ($"Positional cannot be required and have a default value") ++
      dv ++
      if_then (isSome (d_require d) || isSome (d_conflict d)) ($"Positional cannot have dependencies")).

(** validate_type_format (validate_structure.c 157-187) from entry [i] on *)
Definition entry_says (T : list opt) (o : opt) (h : heap) : res (list cstr) :=
  match d_type (decl_of o) with
  | TOption => option_says T o h
  | TPositional => positional_says o h
  | TGroup => Ok (group_says (decl_of o))
  | TSubcommand => Ok (subcommand_says (decl_of o))
  end.
Fixpoint format_reports (T : list opt) (i : nat) (l : list opt) (h : heap) : res (list (nat * cstr)) :=
  match l with
  | [] => Ok []
  | o :: l' =>
      let* r := entry_says T o h in
      let* rs := format_reports T (S i) l' h in
      Ok (map (pair i) r ++ rs)
  end.

(** The loop over the subcommands (validate_structure.c 201-214); see [validate_subs] *)
Fixpoint subs_reports (rec : nat -> nat -> res (list report * nat)) (t i : nat) (l : list opt) (depth : nat)
  : res (list report * nat) :=
  match l with
  | [] => Ok ([], depth)
  | o :: l' =>
      match d_type (decl_of o), d_sub (decl_of o) with
      | TSubcommand, Some t' =>
          let depth1 := S depth in
          let here := if (MAX_SUBCOMMAND_DEPTH <? depth1)%nat
            then [Report t i ($"Subcommand depth exceeds maximum allowed (" ++ dec (Z.of_nat MAX_SUBCOMMAND_DEPTH) ++ $")")]
            else [] in
          let* (below, depth2) := rec t' depth1 in
          let* (rest, depth3) := subs_reports rec t (S i) l' (depth2 - 1) in
          Ok (here ++ below ++ rest, depth3)
      | _, _ => subs_reports rec t (S i) l' depth
      end
  end.
(** validate_structure (validate_structure.c 189-216) *)
Definition at_table (t : nat) (l : list (nat * cstr)) : list report := map (fun r => Report t (fst r) (snd r)) l.
Fixpoint structure_reports (fuel : nat) (a : argus) (t depth : nat) : res (list report * nat) :=
  match fuel with
  | O => UB StackOverflow
  | S fuel' =>
      let* T := table a t in
      let pl := placement_reports (Placement false false false false false SUCCESS) O T in
      let nm := naming_reports t O T [] in
      let* tf := format_reports T O T (a_heap a) in
      let* (subs, depth') := subs_reports (structure_reports fuel' a) t O T depth in
      Ok (at_table t (pl ++ nm ++ tf) ++ subs, depth')
  end.

(** ** The lines *)

(** argus_struct_error (errors.h 79-117); [o = None] is OPTION_END.  A NULL file is printed
    with [%s]. *)
Definition struct_error_line (file : option cstr) (line : Z) (o : option opt) (m : cstr) : res cstr :=
  match file with
  | None => UB NullDeref
  | Some f =>
      let kind :=
        match o with
        | None => $"Unknown [ "
        | Some o => match d_type (decl_of o) with
                    | TOption => $"Option [ " | TGroup => $"Group [ "
                    | TPositional => $"Positional [ " | TSubcommand => $"Subcommand [ "
                    end
        end in
      let name :=
        match o with
        | None => $"unnamed"
        | Some o =>
            let d := decl_of o in
            match d_name d with
            | None => $"unnamed"
            | Some n =>
                if type_is TOption d then
                  match d_lname d with Some l => $"--" ++ l | None => [] end ++
                  (if Ascii.eqb (d_sname d) NUL then [] else $" -" ++ [d_sname d])
                else n
            end
        end in
      Ok (f ++ $":" ++ dec line ++ $" -> " ++ kind ++ name ++ $" ]:" ++ [newline] ++ ["009"%char] ++ m ++ [newline])
  end.
Fixpoint reports_text (a : argus) (l : list report) : res cstr :=
  match l with
  | [] => Ok []
  | r :: l' =>
      let* T := table a (r_tab r) in
      let* t := struct_error_line (file_of (r_tab r) (r_at r)) (line_of (r_tab r) (r_at r)) (T !! r_at r) (r_text r) in
      let* more := reports_text a l' in
      Ok (t ++ more)
  end.
(** Standard error after _argus_init_validate (argus_init.c 20-38) with validate = true *)
Definition init_stderr (fuel : nat) (tabs : list (list opt)) (root depth : nat) : res cstr :=
  let a := make_argus tabs root None in
  let* (l, _) := structure_reports fuel a root depth in
  reports_text a l.
End reports.
