(** * Specification of the help screen: the texts of its entries *)
From Verif Require Export SpecDisplay SpecAfter.

(** A C string holds no terminator. *)
Definition c_text (s : cstr) : Prop := terminator ∉ s.
Definition opt_text (s : option cstr) : Prop := match s with Some t => c_text t | None => True end.

Section help.
Context `{Libc, Printf}.

(** What is assumed of the C library: numbers are printed without terminators, and "%.2g"
    gives at most 20 characters (sign, two digits, point, exponent). *)
Definition printf_ok : Prop :=
  forall z, (length (fmt_2g z) <= 20)%nat /\ c_text (fmt_2g z) /\ c_text (fmt_2f z).

(** ** Validators *)

(** The data of a validator are C values: strings end, integers have 64 bits, tables fit the
    address space. *)
Definition int64 (z : Z) : Prop := - 9223372036854775808 <= z < 9223372036854775808.
Definition total (l : list nat) : nat := foldr Nat.add O l.
Definition showable_validator (v : ventry) : Prop :=
  match v_fun v with
  | VRegex p h => opt_text p /\ opt_text h
  | VChoicesStr l =>
      Forall c_text l /\ Z.of_nat (total (map length l)) + Z.of_nat (length l) < two64
  | VChoicesInt l => Forall int64 l /\ Z.of_nat (length l) <= 100000000000000000
  | VChoicesFloat l => Z.of_nat (length l) <= 100000000000000000
  | _ => True
  end.

(** The words for a validator. *)
Definition validator_words (v : ventry) : option cstr :=
  match v_fun v with
  | VRange a b | VCount a b => Some (dec a ++ $"-" ++ dec b)
  | VLength a b => Some (dec a ++ $"-" ++ dec b ++ $" chars")
  | VRegex p h =>
      Some (if bool_decide (default [] h <> []) then default [] h
            else if bool_decide (default [] p <> [] /\ (length (default [] p) <= 15)%nat)
                 then default [] p else $"pattern")
  | VChoicesStr l => Some (bars l)
  | VChoicesInt l => Some (bars (map dec l))
  | VChoicesFloat l => Some (bars (map fmt_2g l))
  | VCustomPre _ | VCustomPost _ => None
  end.
(** How they appear in a description. *)
Definition validator_note (v : ventry) : cstr :=
  match validator_words v with
  | None => []
  | Some t =>
      match v_fun v with
      | VRange _ _ => $" (range: " ++ t ++ $")"
      | VCount _ _ => $" (count: " ++ t ++ $")"
      | VRegex _ _ => $" (pattern: " ++ t ++ $")"
      | VLength _ _ => $" (" ++ t ++ $")"
      | _ => $" [" ++ t ++ $"]"
      end
  end.
(** The words of a numeric validator fit 31 characters, a note fits 255. *)
Definition short_validator (v : ventry) : Prop :=
  (length (validator_note v) <= 255)%nat /\
  match v_fun v with
  | VRange _ _ | VCount _ _ | VLength _ _ => (length (default [] (validator_words v)) <= 31)%nat
  | _ => True
  end.

(** ** Hints *)

(** Words that may serve as the hint of an option. *)
Definition brief (c : helper_config) (t : cstr) : bool :=
  (length t <=? smart_hint_max_length c)%nat &&
  (smart_hint_allow_spaces c || bool_decide (" "%char ∉ t)).
(** The words of the only validator, if they are the hint of the option. *)
Definition hint_of_validator (c : helper_config) (d : decl) : option cstr :=
  match d_hint d, d_validators d with
  | None, Some [v] =>
      match validator_words v with
      | Some t => if brief c t then Some t else None
      | None => None
      end
  | _, _ => None
  end.
Definition type_word (t : N) : cstr :=
  match t with
  | 1 => $"NUM" | 2 => $"STR" | 4 => $"FLOAT" | 8 => $"BOOL" | 16 => $"FLAG" | _ => $"VALUE"
  end%N.
Definition hint_words (c : helper_config) (d : decl) : cstr :=
  match d_hint d with
  | Some h => h
  | None => default (type_word (d_vtype d)) (hint_of_validator c d)
  end.
(** Collections show that values repeat. *)
Definition repeated (t : N) (h : cstr) : cstr :=
  if has t VT_VARIADIC then h ++ $"..."
  else if has t VT_ARRAY then h ++ $",..."
  else if has t VT_MAP then $"KEY=" ++ h ++ $",..."
  else h.

(** ** Names *)
Definition option_names (d : decl) : cstr :=
  match Ascii.eqb (d_sname d) terminator, d_lname d with
  | true, None => []
  | true, Some l => $"--" ++ l
  | false, None => "-"%char :: [d_sname d]
  | false, Some l => "-"%char :: d_sname d :: $", --" ++ l
  end.
Definition option_head (c : helper_config) (d : decl) : cstr :=
  spaces (option_indent c) ++ option_names d ++
  (if N.eqb (d_vtype d) VT_FLAG then []
   else $" <" ++ repeated (d_vtype d) (hint_words c d) ++ $">").
Definition argument_words (d : decl) (n : cstr) : cstr :=
  let body := n ++ (if has (d_vtype d) VT_VARIADIC then $"..." else []) in
  if N.testbit (d_flags d) 0 then $"<" ++ body ++ $">" else $"[" ++ body ++ $"]".
Definition positional_head (c : helper_config) (d : decl) : cstr :=
  spaces (option_indent c) ++ argument_words d (default [] (d_name d)).
Definition command_head (c : helper_config) (d : decl) : cstr :=
  spaces (option_indent c) ++ default [] (d_name d).

(** ** Descriptions *)

(** The default value of an option that takes a value. *)
Definition default_value (d : decl) : cstr :=
  if N.eqb (d_vtype d) VT_INT then
    match d_default d with Raw _ z => dec (to_int32 z) | _ => [] end
  else if N.eqb (d_vtype d) VT_STRING then
    match d_default d with
    | PLit s => [ascii_of_nat 34] ++ s ++ [ascii_of_nat 34]
    | _ => $"null"
    end
  else if N.eqb (d_vtype d) VT_FLOAT then
    match d_default d with Raw _ z => fmt_2f z | _ => [] end
  else if N.eqb (d_vtype d) VT_BOOL then
    match d_default d with Raw _ z => if z mod 256 =? 0 then $"false" else $"true" | _ => [] end
  else [].
Definition has_default (d : decl) : bool := d_have_default d && negb (N.eqb (d_vtype d) VT_FLAG).
Definition default_note (d : decl) : cstr :=
  if has_default d then $" (default: " ++ default_value d ++ $")" else [].
(** The variable of the option, in the parentheses that end the text so far or in new ones. *)
Definition add_variable (n : option cstr) (t : cstr) : cstr :=
  match n with
  | None => t
  | Some v =>
      if bool_decide (last t = Some ")"%char)
      then take (length t - 1) t ++ $", env: " ++ v ++ $")"
      else t ++ $" (env: " ++ v ++ $")"
  end.
Definition attribute_notes (d : decl) : cstr :=
  (if N.testbit (d_flags d) 5 then $" (exit)" else []) ++
  (if N.testbit (d_flags d) 0 then $" (required)" else []) ++
  (if N.testbit (d_flags d) 3 then $" (deprecated)" else []) ++
  (if N.testbit (d_flags d) 4 then $" (experimental)" else []).
Definition description (c : helper_config) (prefix : option cstr) (d : decl) : cstr :=
  add_variable (env_variable prefix d)
    (default [] (d_help d) ++
     (match hint_of_validator c d with
      | Some _ => []
      | None => concat (map validator_note (default [] (d_validators d)))
      end) ++
     default_note d) ++
  attribute_notes d.

(** An entry: its head, a gap, and its description cut into lines.  The description starts at
    the column of the configuration, on a line of its own if less than four columns are left
    for the gap (the gap is two columns if the head passes the column). *)
Definition gap (c : helper_config) (head : cstr) : cstr :=
  let free := if (length head <? description_column c)%nat
              then (description_column c - length head)%nat else 2%nat in
  if (free <? 4)%nat then newline :: spaces (description_column c) else spaces free.
Definition entry_text (c : helper_config) (head desc t : cstr) : Prop :=
  exists lines,
    t = head ++ gap c head ++ $"- " ++
        layout (spaces (description_column c + 2)) lines ++ [newline] /\
    (desc = [] /\ lines = [] \/
     desc <> [] /\ cut_into (max_line_width c - description_column c - 2) desc lines).

(** ** Conditions *)

(** A declaration built from C values: texts end, the default value has the member that the
    value type names, and the description fits the address space. *)
Record showable (prefix : option cstr) (d : decl) : Prop := {
  sh_texts : Forall opt_text [prefix; d_name d; d_lname d; d_help d; d_hint d; d_env_name d];
  sh_validators : Forall showable_validator (default [] (d_validators d));
  sh_default : has_default d = true ->
    (d_vtype d = VT_STRING -> d_default d = VNull \/ exists s, d_default d = PLit s /\ c_text s) /\
    (d_vtype d = VT_INT \/ d_vtype d = VT_FLOAT \/ d_vtype d = VT_BOOL ->
     exists z, d_default d = Raw W8 z);
  sh_size : Z.of_nat (length (default [] (d_help d))) +
    256 * Z.of_nat (length (default [] (d_validators d))) + 1000 < two64;
}.
(** Every note fits the buffer it is made in. *)
Record fits (prefix : option cstr) (d : decl) : Prop := {
  fit_validators : Forall short_validator (default [] (d_validators d));
  fit_default : (length (default_value d) <= 115)%nat;
  fit_env : (length (default [] (env_variable prefix d)) <= 247)%nat;
  fit_attributes : (length (attribute_notes d) <= 31)%nat;
}.
Definition fits_hint (c : helper_config) (d : decl) : Prop :=
  has (d_vtype d) (N.lor VT_VARIADIC (N.lor VT_ARRAY VT_MAP)) = true ->
  (length (repeated (d_vtype d) (hint_words c d)) <= 63)%nat.

(** ** The whole screen *)

(** [t] shows the entries at [l], one after the other, each as [R] says. *)
Definition listed (R : decl -> cstr -> Prop) (T : list opt) (l : list nat) (t : cstr) : Prop :=
  exists ts, t = concat ts /\
    Forall2 (fun i u => exists o, T !! i = Some o /\ R (decl_of o) u) l ts.
(** A section is left out if it has no entries. *)
Definition section (title : cstr) (R : decl -> cstr -> Prop) (T : list opt) (l : list nat)
    (t : cstr) : Prop :=
  (l = [] /\ t = []) \/
  (l <> [] /\ exists u, t = [newline] ++ title ++ $":" ++ [newline] ++ u /\ listed R T l u).
Definition option_entry (c : helper_config) (prefix : option cstr) (d : decl) (t : cstr) : Prop :=
  entry_text c (option_head c d) (description c prefix d) t.
Definition positional_entry (c : helper_config) (prefix : option cstr) (d : decl) (t : cstr) : Prop :=
  entry_text c (positional_head c d) (description c prefix d) t.
Definition command_entry (c : helper_config) (prefix : option cstr) (d : decl) (t : cstr) : Prop :=
  entry_text c (command_head c d) (description c prefix d) t.
(** The names of the selected subcommands, each after a space. *)
Definition path_words (names : list cstr) : cstr := concat (map (fun n => " "%char :: n) names).
Definition footer (p : program) (names : list cstr) : cstr :=
  [newline] ++ $"Run '" ++ p_name p ++ path_words names ++
  $" COMMAND --help' for more information on a command." ++ [newline].
Definition help_screen (p : program) (prefix : option cstr) (names : list cstr) (T : list opt)
    (t : cstr) : Prop :=
  let c := p_config p in
  exists D t1 ts t3 t4,
    organized T D /\ t = t1 ++ concat ts ++ t3 ++ t4 ++ [newline] /\
    section ($"Arguments") (positional_entry c prefix) T (map snd (hd_positionals D)) t1 /\
    Forall2 (fun g u => section (g_name g) (option_entry c prefix) T (map snd (g_options g)) u)
      (hd_groups D) ts /\
    section ($"Options") (option_entry c prefix) T (map snd (hd_ungrouped D)) t3 /\
    exists u, section ($"Commands") (command_entry c prefix) T (map snd (hd_subcommands D)) u /\
      t4 = u ++ match hd_subcommands D with [] => [] | _ => footer p names end.

(** ** Conditions on a table and a state *)

(** Every entry that is not a group is built from C values; positionals and subcommands have
    names. *)
Definition showable_table (prefix : option cstr) (T : list opt) : Prop :=
  forall o, o ∈ T -> is_group o = false ->
    showable prefix (decl_of o) /\
    (entry_is TPositional o = true \/ entry_is TSubcommand o = true -> is_Some (d_name (decl_of o))).
(** Every note of every entry fits its buffer. *)
Definition fitting_table (c : helper_config) (prefix : option cstr) (T : list opt) : Prop :=
  forall o, o ∈ T -> is_group o = false ->
    fits prefix (decl_of o) /\ (entry_is TOption o = true -> fits_hint c (decl_of o)).
(** The names of the subcommands selected so far. *)
Definition selected (a : argus) (names : list cstr) : Prop :=
  Forall2 (fun r n => exists o, get_option a (fst r) (snd r) = Ok o /\ d_name (decl_of o) = Some n)
    (a_stack a) names.
(** Room for at least one column of text; the C code computes the room as a size_t. *)
Definition good_config (c : helper_config) : Prop :=
  (description_column c + 2 < max_line_width c)%nat /\ Z.of_nat (max_line_width c) < two64.
(** The room is not exactly nothing. *)
Definition endable (c : helper_config) : Prop :=
  (Z.of_nat (max_line_width c) - Z.of_nat (description_column c) - 2) mod two64 <> 0.

(** The blocks of [h] are unchanged in [h'] and no other block is live. *)
Definition released (h h' : heap) : Prop :=
  (forall i, (i < length (blocks h))%nat -> blocks h' !! i = blocks h !! i) /\
  (forall i x, (length (blocks h) <= i)%nat -> blocks h' !! i <> Some (Some x)).

(** ** Usage *)
Definition usage_line (p : program) (names : list cstr) (T : list opt) : cstr :=
  $"Usage: " ++ p_name p ++ path_words names ++ $" [OPTIONS]" ++
  concat (map (fun o => " "%char :: argument_words (decl_of o) (default [] (d_name (decl_of o))))
            (List.filter (entry_is TPositional) T)) ++
  (if existsb (entry_is TSubcommand) T then $" COMMAND" else []) ++ [newline].
End help.
