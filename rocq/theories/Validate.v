(** * The structure check (source/core/validation) *)
From Verif Require Export Macros.

(** Each function returns its status; the texts of ARGUS_STRUCT_ERROR are in StructErrors.v.
    The redirections of stderr in validate_default_value are in Stream.v. *)

Definition type_is (t : optype) (d : decl) : bool := bool_decide (d_type d = t).

(** ** validate_structure.c *)

(** State of the loop of validate_placement (validate_structure.c 22-27) *)
Record placement := Placement {
  p_pos : bool; p_opt_pos : bool; p_many : bool; p_sub : bool; p_help : bool; p_status : Z }.

(** One iteration of validate_placement (29-75) *)
Definition placement_step (s : placement) (o : opt) : placement :=
  let d := decl_of o in
  let is_pos := type_is TPositional d in
  let required := has (d_flags d) FLAG_REQUIRED in
  let variadic := has (d_vtype d) VT_VARIADIC in
  let has_sub := p_sub s || type_is TSubcommand d in
  let '(has_opt, many, pos, st) :=
    if is_pos && negb required then (true, p_many s, p_pos s, p_status s)
    else if is_pos && variadic then
      (p_opt_pos s, true, p_pos s, if p_many s then E_MALFORMED_OPTION else p_status s)
    else if is_pos then
      (p_opt_pos s, p_many s, true, if p_many s then E_MALFORMED_OPTION else p_status s)
    else (p_opt_pos s, p_many s, p_pos s, p_status s) in
  let helper := p_help s ||
    (type_is TOption d &&
     match d_name d with Some n => strcmp n ($"help") =? 0 | None => false end) in
  let st := if has_opt && many then E_MALFORMED_OPTION else st in
  let st := if type_is TOption d && has_sub then STRUCT_ERROR else st in
  let st := if has_sub && pos then STRUCT_ERROR else st in
  let st := if is_pos && required && has_opt then STRUCT_ERROR else st in
  Placement pos has_opt many has_sub helper st.

(** validate_placement (20-80) *)
Definition validate_placement (T : list opt) : Z :=
  let s := fold_left placement_step T (Placement false false false false false SUCCESS) in
  if p_help s then p_status s else E_MALFORMED_OPTION.

(** lname_is_unique (82-102): the entries after the one named [lname] *)
Definition str_is (a : option cstr) (b : cstr) : bool :=
  match a with Some s => strcmp b s =? 0 | None => false end.
Definition lname_is_unique (lname : option cstr) (later : list opt) : Z :=
  match lname with
  | None => SUCCESS
  | Some l =>
      if existsb (fun o => str_is (d_name (decl_of o)) l || str_is (d_lname (decl_of o)) l) later
      then E_DUPLICATE_OPTION else SUCCESS
  end.

Definition space_char : ascii := " "%char.
Definition hyphen : ascii := "-"%char.
Definition first_is (s : cstr) (c : ascii) : bool :=
  match s with x :: _ => Ascii.eqb x c | [] => false end.
Definition is_empty (s : cstr) : bool := match s with [] => true | _ => false end.
Definition contains (s : cstr) (c : ascii) : bool :=
  match strchr s c with Some _ => true | None => false end.

(** validate_naming (104-155): [used] = the short names marked in used_short *)
Fixpoint validate_naming_from (T : list opt) (used : list ascii) (st : Z) : Z :=
  match T with
  | [] => st
  | o :: T' =>
      let d := decl_of o in
      let sn := d_sname d in
      let bad_name :=
        match d_name d with Some n => is_empty n | None => true end && negb (type_is TGroup d) in
      let bad_sname := Ascii.eqb sn space_char || Ascii.eqb sn hyphen ||
        (negb (Ascii.eqb sn NUL) && existsb (Ascii.eqb sn) used) in
      let bad_lname :=
        match d_lname d with
        | None => false
        | Some l => first_is l hyphen || contains l space_char || contains l dot || is_empty l
        end in
      let bad := bad_name || bad_sname || bad_lname ||
                 negb (lname_is_unique (d_lname d) T' =? SUCCESS) in
      validate_naming_from T' (if Ascii.eqb sn NUL then used else sn :: used)
        (if bad then E_MALFORMED_OPTION else st)
  end.
Definition validate_naming (T : list opt) : Z := validate_naming_from T [] SUCCESS.

(** ** validate_containers.c *)

(** validate_subcommand (14-59) *)
Definition isSome {A} (x : option A) : bool := match x with Some _ => true | None => false end.
Definition validate_subcommand (d : decl) : Z :=
  let st := if isSome (d_name d) then SUCCESS else E_MALFORMED_OPTION in
  let st := if isSome (d_help d) then st else E_MALFORMED_OPTION in
  let st := if isSome (d_sub d) then st else E_MALFORMED_OPTION in
  let st := if has_other (d_flags d) SUBCOMMAND_FLAG_MASK then E_INVALID_FLAG else st in
  let st := if isSome (d_handler d) then E_INVALID_HANDLER else st in
  let st := if isSome (d_require d) || isSome (d_conflict d) then E_INVALID_DEPENDENCY else st in
  let st := if d_have_default d then E_INVALID_DEFAULT else st in
  if isSome (d_validators d) then E_INVALID_FLAG else st.

(** validate_group (61-71) *)
Definition validate_group (d : decl) : Z :=
  if has_other (d_flags d) GROUP_FLAG_MASK then E_INVALID_GROUP else SUCCESS.

(** ** validate_arguments.c *)

(** The loop of validate_default_value (25-46).  What a validator prints is captured and put into
    the message with [%s] (36-41).  The test in 36 looks at the status of all validators so far:
    if this or an earlier one failed and this one printed nothing, read_stderr gives NULL.  The
    validators of the library print exactly when they fail; those of the program are taken to
    print nothing, as in [run_validator].  Redirecting is assumed to succeed. *)
Fixpoint default_validators `{Libc} (o : opt) (h : heap) (l : list ventry) (st : Z) : res Z :=
  match l with
  | [] => Ok st
  | e :: l' =>
      let* (r, printed) :=
        match v_order e with
        | ORDER_PRE =>
            if (d_vtype (decl_of o) =? VT_STRING)%N then
              let* s := read_str h (d_default (decl_of o)) in
              run_validator (v_fun e) (ArgText s) h
            else Ok (SUCCESS, [])
        | ORDER_POST => run_validator (v_fun e) (ArgOption o) h
        end in
      let st1 := if r =? SUCCESS then st else E_INVALID_DEFAULT in
      if st1 =? SUCCESS then default_validators o h l' st1
      else match printed with
           | [] => UB NullDeref
           | _ => default_validators o h l' E_INVALID_DEFAULT
           end
  end.

(** validate_default_value (18-49) *)
Definition validate_default_value `{Libc} (o : opt) (h : heap) : res Z :=
  let d := decl_of o in
  if d_have_default d then
    if (d_vtype d =? VT_FLAG)%N then Ok E_INVALID_DEFAULT
    else match d_validators d with
         | None => Ok SUCCESS
         | Some l => default_validators o h l SUCCESS
         end
  else Ok SUCCESS.

(** validate_dependencies (51-91) *)
Definition validate_dependencies (T : list opt) (d : decl) : Z :=
  let req := default [] (d_require d) in
  let con := default [] (d_conflict d) in
  let both := existsb (fun r => existsb (fun c => strcmp r c =? 0) con) req in
  let lost l := existsb (fun n => negb (isSome (find_option_by_name T n))) l in
  if both || lost req || lost con then E_INVALID_DEPENDENCY else SUCCESS.

(** validate_option (93-125) *)
Definition validate_option `{Libc} (T : list opt) (o : opt) (h : heap) : res Z :=
  let d := decl_of o in
  let st := if Ascii.eqb (d_sname d) NUL && negb (isSome (d_lname d))
            then E_MALFORMED_OPTION else SUCCESS in
  let st := if ((d_vtype d =? VT_PRIMITIVE)%N && has_other (d_flags d) OPTION_FLAG_MASK) ||
               ((d_vtype d =? VT_ARRAY)%N && has_other (d_flags d) OPTION_ARRAY_FLAG_MASK) ||
               ((d_vtype d =? VT_MAP)%N && has_other (d_flags d) OPTION_MAP_FLAG_MASK)
            then E_INVALID_FLAG else st in
  let st := if isSome (d_help d) then st else E_MALFORMED_OPTION in
  let st := if isSome (d_handler d) then st else E_INVALID_HANDLER in
  let* dv := validate_default_value o h in
  let st := if dv =? SUCCESS then st else E_MALFORMED_OPTION in
  Ok (if validate_dependencies T d =? SUCCESS then st else E_MALFORMED_OPTION).

(** validate_positional (127-172) *)
Definition validate_positional `{Libc} (o : opt) (h : heap) : res Z :=
  let d := decl_of o in
  let st := if isSome (d_name d) then SUCCESS else E_MALFORMED_OPTION in
  let st := if isSome (d_help d) then st else E_MALFORMED_OPTION in
  let st := if has (d_vtype d) VT_VARIADIC && has_other (d_flags d) POSITIONAL_MANY_FLAG_MASK
            then E_INVALID_FLAG else st in
  let st := if has_other (d_flags d) POSITIONAL_FLAG_MASK then E_INVALID_FLAG else st in
  let st := if isSome (d_handler d) then st else E_INVALID_HANDLER in
  let st := if has (d_flags d) FLAG_REQUIRED && d_have_default d then E_INVALID_FLAG else st in
  let* dv := validate_default_value o h in
  let st := if dv =? SUCCESS then st else E_MALFORMED_OPTION in
  Ok (if isSome (d_require d) || isSome (d_conflict d) then E_INVALID_DEPENDENCY else st).

(** validate_type_format (validate_structure.c 157-187) *)
Fixpoint validate_type_format `{Libc} (T l : list opt) (h : heap) (st : Z) : res Z :=
  match l with
  | [] => Ok st
  | o :: l' =>
      let d := decl_of o in
      let* r :=
        match d_type d with
        | TOption => validate_option T o h
        | TPositional => validate_positional o h
        | TGroup => Ok (validate_group d)
        | TSubcommand => Ok (validate_subcommand d)
        end in
      validate_type_format T l' h (if r =? SUCCESS then st else E_MALFORMED_OPTION)
  end.

(** The loop over the subcommands of a table (validate_structure.c 201-214); [rec] is the
    recursive call, [depth] the static counter subcommand_depth. *)
Fixpoint validate_subs (rec : nat -> nat -> res (Z * nat)) (l : list opt) (st : Z) (depth : nat)
  : res (Z * nat) :=
  match l with
  | [] => Ok (st, depth)
  | o :: l' =>
      match d_type (decl_of o), d_sub (decl_of o) with
      | TSubcommand, Some t =>
          let depth1 := S depth in
          let st1 := if (MAX_SUBCOMMAND_DEPTH <? depth1)%nat then E_MALFORMED_OPTION else st in
          let* (r, depth2) := rec t depth1 in
          let st2 := if r =? SUCCESS then st1 else E_MALFORMED_OPTION in
          validate_subs rec l' st2 (depth2 - 1)
      | _, _ => validate_subs rec l' st depth
      end
  end.

(** validate_structure (validate_structure.c 189-216); [fuel] bounds the C recursion:
    when it is used up the recursion is taken to be endless. *)
Fixpoint validate_structure `{Libc} (fuel : nat) (a : argus) (t depth : nat) : res (Z * nat) :=
  match fuel with
  | O => UB StackOverflow
  | S fuel' =>
      let* T := table a t in
      let st := if validate_placement T =? SUCCESS then SUCCESS else E_MALFORMED_OPTION in
      let st := if validate_naming T =? SUCCESS then st else E_MALFORMED_OPTION in
      let* tf := validate_type_format T T (a_heap a) SUCCESS in
      let st := if tf =? SUCCESS then st else E_MALFORMED_OPTION in
      validate_subs (validate_structure fuel' a) T st depth
  end.

(** _argus_init_validate (argus_init.c 20-38) with validate = true: [None] = the
    process exits with EXIT_FAILURE.  [depth] is the static counter. *)
Definition argus_init `{Libc} (fuel : nat) (tabs : list (list opt)) (root depth : nat)
  : res (option argus * nat) :=
  let a := make_argus tabs root None in
  let* (st, depth') := validate_structure fuel a root depth in
  Ok (if st =? SUCCESS then Some a else None, depth').
