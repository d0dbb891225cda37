(** * Help, usage and version screens

    Transcription of source/display/ (all files) and of the formatters of
    source/callbacks/validators/.  Standard output is the text
    printed so far; memory is the heap of State.v, so allocation failure, leaks and bad
    accesses are visible.  A loop that never ends is the outcome [Endless]. *)
From Verif Require Export Buffer Parse.

(** [printf "%.2f"] of a double given by its bits. *)
Class Printf := { fmt_2f : Z -> cstr }.

(** ** The output monad *)
Inductive shown (A : Type) : Type :=
  | Shown (a : A)
  | Fault (u : ub)
  | Endless.
Arguments Shown {A} a.
Arguments Fault {A} u.
Arguments Endless {A}.

Record dst := Dst { s_out : cstr; s_heap : heap }.
Definition DM (A : Type) := dst -> shown (A * dst).
Definition dret {A} (a : A) : DM A := fun s => Shown (a, s).
Definition dbind {A B} (m : DM A) (k : A -> DM B) : DM B :=
  fun s => match m s with
           | Shown (a, s') => k a s'
           | Fault u => Fault u
           | Endless => Endless
           end.
Notation "'let^' x := m 'in' k" := (dbind m (fun x => k))
  (at level 200, x pattern, m at level 200, k at level 200, right associativity).
Notation "m ;;^ k" := (dbind m (fun _ => k)) (at level 199, right associativity).

Definition dlift {A} (r : res A) : DM A :=
  fun s => match r with Ok a => Shown (a, s) | UB u => Fault u end.
Definition put (t : cstr) : DM unit :=
  fun s => Shown (tt, Dst (s_out s ++ t) (s_heap s)).
Definition dmalloc (b : block) : DM (option nat) :=
  fun s => let '(r, h') := malloc b (s_heap s) in Shown (r, Dst (s_out s) h').
Definition dstore (l : nat) (b : block) : DM unit :=
  fun s => match store (PHeap l) b (s_heap s) with
           | Ok h' => Shown (tt, Dst (s_out s) h')
           | UB u => Fault u
           end.
Definition dfree (l : nat) : DM unit :=
  fun s => match free (PHeap l) (s_heap s) with
           | Ok h' => Shown (tt, Dst (s_out s) h')
           | UB u => Fault u
           end.
(** [free] of a possibly null pointer *)
Definition dfree_ptr (p : option nat) : DM unit :=
  match p with Some l => dfree l | None => dret tt end.
(** The C string at an address of the heap, or of the value union. *)
Definition dread (l : nat) : DM cstr :=
  fun s => match deref_str (PHeap l) (s_heap s) with
           | Ok t => Shown (t, s)
           | UB u => Fault u
           end.
Definition dread_value (v : uval) : DM cstr :=
  fun s => match deref_str v (s_heap s) with
           | Ok t => Shown (t, s)
           | UB u => Fault u
           end.
(** A pointer printed with %s must not be null. *)
Definition dname (s : option cstr) : DM cstr :=
  match s with Some n => dret n | None => dlift (UB NullDeref) end.

(** ** Configuration (types.h 300-337) *)
Record helper_config := HelperConfig {
  max_line_width : nat;
  description_column : nat;
  option_indent : nat;
  smart_hint_max_length : nat;
  smart_hint_allow_spaces : bool;
}.
(** get_default_helper_config (help_formatter.c 26-33, display.h 18-26) *)
Definition default_config : helper_config := HelperConfig 100 32 2 20 false.

(** The fields of argus_t that only the screens use (program_name is not null, since
    argus_init receives it from the program). *)
Record program := Program {
  p_name : cstr;
  p_version : option cstr;
  p_description : option cstr;
  p_config : helper_config;
}.

(** [putnchar (' ', n)] (strings.c 123-128) *)
Definition spaces (n : nat) : cstr := replicate n " "%char.
Definition newline : ascii := ascii_of_nat 10.

(** ** Formatters of validators *)

(** A block filled with a copy of a text: malloc, then safe_strcpy (regex_validator.c 94-98) *)
Definition copy_block (t : cstr) : DM (option nat) :=
  let^ p := dmalloc BTmp in
  match p with
  | None => dret None
  | Some l =>
      let^ r := dlift (safe_strcpy (Some (replicate (length t + 1) None))
                         (Z.of_nat (length t + 1)) (Some t)) in
      let^ s := dlift (match snd r with Some b => read_string b | None => UB NullDeref end) in
      dstore l (BStr s) ;;^ dret (Some l)
  end.
(** [strdup] *)
Definition strdup (t : cstr) : DM (option nat) := dmalloc (BStr t).

(** [malloc (32)] and [snprintf] into it (range_validator.c 37-45, length_validator.c 49-57,
    count_validator.c 44-52) *)
Definition format32 (t : cstr) : DM (option nat) :=
  let^ p := dmalloc BTmp in
  match p with
  | None => dret None
  | Some l => dstore l (BStr (snprintf 32 t)) ;;^ dret (Some l)
  end.

(** Room and text of one choice (choices_validator.c 94-104, 119-133) *)
Definition choice_room (c : choices) : list nat :=
  match c with
  | ChStr l => map length l
  | ChInt l => map (fun _ => 20%nat) l
  | ChFloat l => map (fun _ => 20%nat) l
  end.
Definition choice_text `{Libc} (c : choices) : list cstr :=
  match c with
  | ChStr l => l
  | ChInt l => map (fun z => snprintf 32 (dec z)) l
  | ChFloat l => map (fun z => snprintf 32 (fmt_2g z)) l
  end.
(** The first loop (93-108): a separator after every choice but the last *)
Fixpoint total_room (l : list nat) : nat :=
  match l with
  | [] => O
  | [n] => n
  | n :: l' => n + 1 + total_room l'
  end.
(** safe_strcat with its result ignored *)
Definition append_to (b : bytes) (size : nat) (t : cstr) : res bytes :=
  let* r := safe_strcat (Some b) (Z.of_nat size) (Some t) in
  match snd r with Some b' => Ok b' | None => UB NullDeref end.
(** The second loop (116-137) *)
Fixpoint append_choices (b : bytes) (size : nat) (l : list cstr) : res bytes :=
  match l with
  | [] => Ok b
  | t :: l' =>
      let* b1 := append_to b size t in
      let* b2 := match l' with [] => Ok b1 | _ => append_to b1 size ($"|") end in
      append_choices b2 size l'
  end.
(** format_choices_validator (choices_validator.c 87-140); the total is assumed not to
    exceed the range of size_t *)
Definition choices_text `{Libc} (c : choices) : res cstr :=
  let size := (total_room (choice_room c) + 1)%nat in
  let* b := write (replicate size None) O [terminator] in
  let* b' := append_choices b size (choice_text c) in
  read_string b'.
Definition format_choices `{Libc} (c : choices) : DM (option nat) :=
  let^ p := dmalloc BTmp in
  match p with
  | None => dret None
  | Some l =>
      let^ t := dlift (choices_text c) in
      dstore l (BStr t) ;;^ dret (Some l)
  end.

(** format_regex_validator (regex_validator.c 87-114) *)
Definition format_regex (pattern hint : option cstr) : DM (option nat) :=
  match hint with
  | Some (c :: t) => copy_block (c :: t)
  | _ =>
      match pattern with
      | Some (c :: t) =>
          if (length (c :: t) <=? 15)%nat then copy_block (c :: t) else strdup ($"pattern")
      | _ => strdup ($"pattern")
      end
  end.

(** The formatter stored by the validator macros (options.h 94-137); validators of the user
    have none (simplification: MAKE_VALIDATOR with a user's formatter is not modelled) *)
Definition formatter `{Libc} (v : ventry) : option (DM (option nat)) :=
  match v_fun v with
  | VRange a b => Some (format32 (dec a ++ $"-" ++ dec b))
  | VLength a b => Some (format32 (dec a ++ $"-" ++ dec b ++ $" chars"))
  | VCount a b => Some (format32 (dec a ++ $"-" ++ dec b))
  | VRegex p h => Some (format_regex p h)
  | VChoicesStr l => Some (format_choices (ChStr l))
  | VChoicesInt l => Some (format_choices (ChInt l))
  | VChoicesFloat l => Some (format_choices (ChFloat l))
  | VCustomPre _ | VCustomPost _ => None
  end.

(** ** Hints (help_formatter.c 35-112) *)

(** get_base_type_name (35-51) *)
Definition base_type_name (t : N) : cstr :=
  if N.eqb t VT_INT then $"NUM"
  else if N.eqb t VT_STRING then $"STR"
  else if N.eqb t VT_FLOAT then $"FLOAT"
  else if N.eqb t VT_BOOL then $"BOOL"
  else if N.eqb t VT_FLAG then $"FLAG"
  else $"VALUE".

(** get_collection_format with format_collection_hint (53-70): the buffer has 64 bytes *)
Definition collection_hint (t : N) (h : cstr) : option cstr :=
  if has t VT_VARIADIC then Some (snprintf 64 (h ++ $"..."))
  else if has t VT_ARRAY then Some (snprintf 64 (h ++ $",..."))
  else if has t VT_MAP then Some (snprintf 64 ($"KEY=" ++ h ++ $",..."))
  else None.

(** is_short_hint (72-82) *)
Definition is_short_hint (c : helper_config) (h : cstr) : bool :=
  (length h <=? smart_hint_max_length c)%nat &&
  (smart_hint_allow_spaces c || match strchr h " " with Some _ => false | None => true end).

(** has_single_validator (84-97) and its entry *)
Definition single_validator (d : decl) : option ventry :=
  match d_validators d with
  | Some [v] => Some v
  | _ => None
  end.

(** get_smart_hint (99-112) *)
Definition get_smart_hint `{Libc} (c : helper_config) (d : decl) : DM (option nat) :=
  match d_hint d with
  | Some h => strdup h
  | None =>
      match single_validator d with
      | Some v =>
          match formatter v with
          | Some f =>
              let^ p := f in
              let^ short := match p with
                            | Some l => let^ t := dread l in dret (is_short_hint c t)
                            | None => dret false
                            end in
              if short then dret p
              else dfree_ptr p ;;^ strdup (base_type_name (d_vtype d))
          | None => strdup (base_type_name (d_vtype d))
          end
      | None => strdup (base_type_name (d_vtype d))
      end
  end.

(** get_env_var_name_for_display (122-161) *)
Definition env_name_for_display (prefix_opt : option cstr) (d : decl) : option cstr :=
  let prefix := default [] prefix_opt in
  let needs_underscore :=
    match last prefix with Some c => negb (Ascii.eqb c "_") | None => false end in
  match d_env_name d with
  | Some env =>
      if has (d_flags d) FLAG_NO_ENV_PREFIX then Some env
      else if match prefix_opt with
              | Some p => strncmp env p (length p) =? 0
              | None => false
              end
      then Some env
      else if needs_underscore then Some (snprintf 128 (prefix ++ $"_" ++ env))
      else Some (snprintf 128 (prefix ++ env))
  | None =>
      if has (d_flags d) FLAG_AUTO_ENV then
        let name := match d_name d with
                    | Some n => n
                    | None => match d_lname d with Some l => l | None => [] end
                    end in
        let full :=
          if has (d_flags d) FLAG_NO_ENV_PREFIX then snprintf 128 name
          else if needs_underscore then snprintf 128 (prefix ++ $"_" ++ name)
          else snprintf 128 (prefix ++ name) in
        Some (map (fun ch => if Ascii.eqb ch "-" then "_"%char else toupper ch) full)
      else None
  end.

(** ** Wrapping (help_formatter.c 163-209) *)

(** The inner loop (175-181) from position [pos] on, [rest] the text from there: the position
    it stops at and [last_space].  [room] is line_width - indent - 2 as a size_t. *)
Fixpoint scan_line (room : Z) (start pos : nat) (last_space : nat) (rest : cstr) : nat * nat :=
  match rest with
  | [] => (pos, last_space)
  | c :: rest' =>
      if (Z.of_nat (pos - start) <? room) && negb (Ascii.eqb c newline)
      then scan_line room start (S pos) (if Ascii.eqb c " " then pos else last_space) rest'
      else (pos, last_space)
  end.
(** [n] bytes of the text from position [from] on ("%.*s") *)
Definition slice (text : cstr) (from n : nat) : cstr := take n (drop from text).
(** One turn of the outer loop (174-207) from [start] = line_start: what is printed and
    either the next line_start or the end of the loop.  At the top of the loop current_pos and
    last_space equal line_start. *)
Definition wrap_turn (text : cstr) (indent : nat) (room : Z) (start : nat)
  : cstr * option nat :=
  let '(pos, last_space) := scan_line room start start start (drop start text) in
  let pad next := if (next <? length text)%nat then spaces (indent + 2) else [] in
  if match text !! pos with Some c => Ascii.eqb c newline | None => false end then
    (slice text start (pos - start) ++ [newline] ++ pad (S pos), Some (S pos))
  else if room <=? Z.of_nat (pos - start) then
    if (start <? last_space)%nat then
      (slice text start (last_space - start) ++ [newline] ++ pad (S last_space),
       Some (S last_space))
    else (slice text start (pos - start) ++ [newline] ++ pad pos, Some pos)
  else (drop start text, None).
(** The outer loop; [None] = still running after [fuel] turns. *)
Fixpoint wrap_loop (fuel : nat) (text : cstr) (indent : nat) (room : Z) (start : nat)
  : option cstr :=
  if (start <? length text)%nat then
    match fuel with
    | O => None
    | S fuel' =>
        match wrap_turn text indent room start with
        | (out, None) => Some out
        | (out, Some next) =>
            match wrap_loop fuel' text indent room next with
            | Some rest => Some (out ++ rest)
            | None => None
            end
        end
    end
  else Some [].
Definition wrap_room (indent line_width : nat) : Z :=
  (Z.of_nat line_width - Z.of_nat indent - 2) mod two64.
(** print_wrapped_text: every turn that does not repeat the previous one advances, so a loop
    still running after as many turns as the text has bytes never ends. *)
Definition print_wrapped_text (text : cstr) (indent line_width : nat) : DM unit :=
  match wrap_loop (length text) text indent (wrap_room indent line_width) O with
  | Some out => put out
  | None => fun _ => Endless
  end.

(** ** Names and descriptions (help_formatter.c 211-435) *)

(** print_option_name (211-239): prints and returns the width *)
Definition print_option_name `{Libc} (c : helper_config) (d : decl) (indent : nat) : DM nat :=
  let names :=
    (if Ascii.eqb (d_sname d) terminator then []
     else $"-" ++ [d_sname d] ++ match d_lname d with Some _ => $", " | None => [] end) ++
    match d_lname d with Some l => $"--" ++ l | None => [] end in
  put (spaces indent ++ names) ;;^
  let w := (indent + length names)%nat in
  if N.eqb (d_vtype d) VT_FLAG then dret w
  else
    let^ p := get_smart_hint c d in
    match p with
    | None => dret w
    | Some l =>
        let^ h := dread l in
        let shown_hint :=
          $" <" ++ match collection_hint (d_vtype d) h with Some f => f | None => h end ++ $">" in
        put shown_hint ;;^ dfree l ;;^ dret (w + length shown_hint)%nat
    end.

(** append_to_description (242-258): the address of the description afterwards *)
Definition append_to_description (l : nat) (suffix : cstr) : DM nat :=
  match suffix with
  | [] => dret l
  | _ =>
      let^ s := dread l in
      let size := (length s + length suffix + 1)%nat in
      let^ p := dmalloc BTmp in
      match p with
      | None => dret l
      | Some l' =>
          let^ r := dlift (safe_strcpy (Some (replicate size None)) (Z.of_nat size) (Some s)) in
          let^ b := dlift (match snd r with Some b => append_to b size suffix
                                          | None => UB NullDeref end) in
          let^ t := dlift (read_string b) in
          dstore l' (BStr t) ;;^ dfree l ;;^ dret l'
      end
  end.

(** append_default_info (261-296): the buffer has 128 bytes, 11 of them for the opening *)
Definition default_text `{Printf} (d : decl) : DM cstr :=
  let finish t := dret ($" (default: " ++ snprintf 117 t) in
  if N.eqb (d_vtype d) VT_INT then
    let^ z := dlift (as_int (d_default d)) in finish (dec z ++ $")")
  else if N.eqb (d_vtype d) VT_STRING then
    let^ n := dlift (is_null (d_default d)) in
    if n then finish ($"null)")
    else let^ s := dread_value (d_default d) in
         finish ([ascii_of_nat 34] ++ s ++ [ascii_of_nat 34] ++ $")")
  else if N.eqb (d_vtype d) VT_FLOAT then
    let^ z := dlift (as_float (d_default d)) in finish (fmt_2f z ++ $")")
  else if N.eqb (d_vtype d) VT_BOOL then
    let^ b := dlift (as_bool (d_default d)) in finish ((if b then $"true" else $"false") ++ $")")
  else finish ($")").
Definition append_default_info `{Printf} (l : nat) (d : decl) : DM nat :=
  if negb (d_have_default d) || N.eqb (d_vtype d) VT_FLAG then dret l
  else let^ t := default_text d in append_to_description l t.

(** How a validator is introduced (321-336): the buffer has 256 bytes *)
Definition validator_info (v : ventry) (t : cstr) : cstr :=
  match v_fun v with
  | VRegex _ _ => snprintf 256 ($" (pattern: " ++ t ++ $")")
  | VChoicesStr _ | VChoicesInt _ | VChoicesFloat _ => snprintf 256 ($" [" ++ t ++ $"]")
  | VLength _ _ => snprintf 256 ($" (" ++ t ++ $")")
  | VRange _ _ => snprintf 256 ($" (range: " ++ t ++ $")")
  | VCount _ _ => snprintf 256 ($" (count: " ++ t ++ $")")
  | VCustomPre _ | VCustomPost _ => []
  end.
(** The loop over the validators (314-345) *)
Fixpoint append_validators `{Libc} (l : nat) (vs : list ventry) : DM nat :=
  match vs with
  | [] => dret l
  | v :: vs' =>
      match formatter v with
      | None => append_validators l vs'
      | Some f =>
          let^ p := f in
          match p with
          | None => append_validators l vs'
          | Some a =>
              let^ t := dread a in
              let^ l' := append_to_description l (validator_info v t) in
              dfree a ;;^ append_validators l' vs'
          end
      end
  end.
(** append_validator_info (299-348) *)
Definition append_validator_info `{Libc} (c : helper_config) (l : nat) (d : decl) : DM nat :=
  match d_validators d with
  | None => dret l
  | Some vs =>
      let^ used :=
        match single_validator d, d_hint d with
        | Some v, None =>
            match formatter v with
            | Some f =>
                let^ p := f in
                match p with
                | Some a => let^ t := dread a in dfree a ;;^ dret (is_short_hint c t)
                | None => dret false
                end
            | None => dret false
            end
        | _, _ => dret false
        end in
      if used then dret l else append_validators l vs
  end.

(** append_env_info (351-368): the buffer has 256 bytes *)
Definition closing : ascii := ")"%char.
Definition append_env_info (prefix : option cstr) (l : nat) (d : decl) : DM nat :=
  match env_name_for_display prefix d with
  | None => dret l
  | Some name =>
      let^ s := dread l in
      if match last s with Some c => Ascii.eqb c closing | None => false end then
        dstore l (BStr (take (length s - 1) s)) ;;^
        append_to_description l (snprintf 256 ($", env: " ++ name ++ $")"))
      else append_to_description l (snprintf 256 ($" (env: " ++ name ++ $")"))
  end.

(** append_flag_info (371-388): the buffer has 32 bytes *)
Definition flag_text (flags : N) : res cstr :=
  let add mask t b := if has flags mask then append_to b 32 t else Ok b in
  let* b1 := add FLAG_EXIT ($" (exit)") (replicate 32 (Some terminator)) in
  let* b2 := add FLAG_REQUIRED ($" (required)") b1 in
  let* b3 := add FLAG_DEPRECATED ($" (deprecated)") b2 in
  let* b4 := add FLAG_EXPERIMENTAL ($" (experimental)") b3 in
  read_string b4.
Definition append_flag_info (l : nat) (d : decl) : DM nat :=
  if negb (has (d_flags d)
             (N.lor (N.lor FLAG_EXIT FLAG_REQUIRED) (N.lor FLAG_DEPRECATED FLAG_EXPERIMENTAL)))
  then dret l
  else let^ t := dlift (flag_text (d_flags d)) in append_to_description l t.

(** build_option_description (390-413) *)
Definition build_option_description `{Libc, Printf} (c : helper_config) (prefix : option cstr)
    (d : decl) : DM (option nat) :=
  let^ p := strdup (match d_help d with Some h => h | None => [] end) in
  match p with
  | None => dret None
  | Some l0 =>
      let^ l1 := append_validator_info c l0 d in
      let^ l2 := append_default_info l1 d in
      let^ l3 := append_env_info prefix l2 d in
      let^ l4 := append_flag_info l3 d in
      dret (Some l4)
  end.

(** print_option_description (415-435) *)
Definition print_option_description `{Libc, Printf} (c : helper_config) (prefix : option cstr)
    (d : decl) (padding : nat) : DM unit :=
  put (if (padding <? 4)%nat then [newline] else []) ;;^
  put (spaces (if (padding <? 4)%nat then description_column c else padding)) ;;^
  put ($"- ") ;;^
  let^ p := build_option_description c prefix d in
  match p with
  | None => put ($"Error: Memory allocation failed" ++ [newline])
  | Some l =>
      let^ t := dread l in
      (match t with
       | [] => dret tt
       | _ => print_wrapped_text t (description_column c) (max_line_width c)
       end) ;;^
      dfree l ;;^ put [newline]
  end.

(** ** Organiser (help_organizer.c)

    A linked list is the list of its entries, each with the address of its cell; the cells
    are blocks of the heap. *)
Notation entries := (list (nat * nat)).      (* address, index of the option *)
Record group := Group { g_cell : nat; g_name : cstr; g_options : entries }.
Record help_data := HelpData {
  hd_groups : list group;
  hd_ungrouped : entries;
  hd_positionals : entries;
  hd_subcommands : entries;
}.

(** create_option_entry and add_option_to_list (19-44): without memory the option is dropped *)
Definition add_option_to_list (l : entries) (i : nat) : DM entries :=
  let^ p := dmalloc BTmp in
  match p with
  | None => dret l
  | Some a => dret (l ++ [(a, i)])
  end.

(** find_or_create_group (46-73): the position of the group in the list *)
Fixpoint find_group (gs : list group) (name : cstr) : option nat :=
  match gs with
  | [] => None
  | g :: gs' =>
      if strcmp (g_name g) name =? 0 then Some O
      else match find_group gs' name with Some n => Some (S n) | None => None end
  end.
Definition find_or_create_group (D : help_data) (name : cstr) : DM (option nat * help_data) :=
  match find_group (hd_groups D) name with
  | Some n => dret (Some n, D)
  | None =>
      let^ p := dmalloc BTmp in
      match p with
      | None => dret (None, D)
      | Some a =>
          dret (Some (length (hd_groups D)),
                HelpData (hd_groups D ++ [Group a name []]) (hd_ungrouped D) (hd_positionals D)
                  (hd_subcommands D))
      end
  end.
(** Adding to the list of a group; a null group is dereferenced (96) *)
Definition add_to_group (D : help_data) (g : option nat) (i : nat) : DM help_data :=
  match g with
  | None => dlift (UB NullDeref)
  | Some n =>
      let^ G := dlift (cell (hd_groups D) n) in
      let^ l := add_option_to_list (g_options G) i in
      dret (HelpData (<[n := Group (g_cell G) (g_name G) l]> (hd_groups D))
              (hd_ungrouped D) (hd_positionals D) (hd_subcommands D))
  end.

(** organize_options (75-113) from index [i] on; [current] = current_group, [group] the cached
    group *)
Fixpoint organize_from (T : list opt) (i : nat) (current : option cstr) (cached : option nat)
    (D : help_data) : DM help_data :=
  match T with
  | [] => dret D
  | o :: T' =>
      let d := decl_of o in
      match d_type d with
      | TGroup => organize_from T' (S i) (d_name d) None D
      | TOption =>
          if has (d_flags d) FLAG_HIDDEN then organize_from T' (S i) current cached D
          else
            match current with
            | Some name =>
                let^ gd := match cached with
                           | Some n => dret (Some n, D)
                           | None => find_or_create_group D name
                           end in
                let^ D' := add_to_group (snd gd) (fst gd) i in
                organize_from T' (S i) current (fst gd) D'
            | None =>
                let^ l := add_option_to_list (hd_ungrouped D) i in
                organize_from T' (S i) current cached
                  (HelpData (hd_groups D) l (hd_positionals D) (hd_subcommands D))
            end
      | TPositional =>
          let^ l := add_option_to_list (hd_positionals D) i in
          organize_from T' (S i) current cached
            (HelpData (hd_groups D) (hd_ungrouped D) l (hd_subcommands D))
      | TSubcommand =>
          let^ l := add_option_to_list (hd_subcommands D) i in
          organize_from T' (S i) current cached
            (HelpData (hd_groups D) (hd_ungrouped D) (hd_positionals D) l)
      end
  end.
Definition organize_options (T : list opt) : DM help_data :=
  organize_from T O None None (HelpData [] [] [] []).

(** free_help_data (115-151) *)
Fixpoint free_entries (l : entries) : DM unit :=
  match l with
  | [] => dret tt
  | (a, _) :: l' => dfree a ;;^ free_entries l'
  end.
Fixpoint free_groups (gs : list group) : DM unit :=
  match gs with
  | [] => dret tt
  | g :: gs' => free_entries (g_options g) ;;^ dfree (g_cell g) ;;^ free_groups gs'
  end.
Definition free_help_data (D : help_data) : DM unit :=
  free_groups (hd_groups D) ;;^ free_entries (hd_ungrouped D) ;;^
  free_entries (hd_positionals D) ;;^ free_entries (hd_subcommands D).

(** ** Renderer (help_renderer.c) *)

Section render.
Context `{Libc, Printf} (c : helper_config) (prefix : option cstr).

(** The padding before a description (25-29, 56-60, 72-76) *)
Definition padding_for (width : nat) : nat :=
  if (width <? description_column c)%nat then (description_column c - width)%nat else 2%nat.

(** print_option (21-32) *)
Definition print_option (d : decl) (indent : nat) : DM unit :=
  let^ w := print_option_name c d indent in
  print_option_description c prefix d (padding_for w).

(** The brackets of a positional (34-54, usage_display.c 39-49) *)
Definition bracketed (d : decl) (n : cstr) : cstr :=
  let dots := if has (d_vtype d) VT_VARIADIC then $"..." else [] in
  if has (d_flags d) FLAG_REQUIRED then $"<" ++ n ++ dots ++ $">" else $"[" ++ n ++ dots ++ $"]".

(** print_positional (34-63) *)
Definition print_positional (d : decl) (indent : nat) : DM unit :=
  let^ n := dname (d_name d) in
  put (spaces indent ++ bracketed d n) ;;^
  print_option_description c prefix d
    (padding_for (indent + length n + (if has (d_vtype d) VT_VARIADIC then 5 else 2))).

(** print_subcommand (65-79) *)
Definition print_subcommand (d : decl) (indent : nat) : DM unit :=
  let^ n := dname (d_name d) in
  put (spaces indent ++ n) ;;^
  print_option_description c prefix d (padding_for (indent + length n)).

(** print_option_list, print_positional_list, print_subcommand_list (81-106) *)
Fixpoint print_list (print : decl -> nat -> DM unit) (T : list opt) (l : entries) : DM unit :=
  match l with
  | [] => dret tt
  | (_, i) :: l' =>
      let^ o := dlift (cell T i) in
      print (decl_of o) (option_indent c) ;;^ print_list print T l'
  end.

Fixpoint print_groups (T : list opt) (gs : list group) : DM unit :=
  match gs with
  | [] => dret tt
  | g :: gs' =>
      (match g_options g with
       | [] => dret tt
       | l => put ([newline] ++ g_name g ++ $":" ++ [newline]) ;;^ print_list print_option T l
       end) ;;^
      print_groups T gs'
  end.

(** The names of the selected subcommands, each after a space (usage_display.c 31-33,
    help_renderer.c 136-137) *)
Fixpoint print_chain (a : argus) (stk : list (nat * nat)) : DM unit :=
  match stk with
  | [] => dret tt
  | r :: stk' =>
      let^ o := dlift (get_option a (fst r) (snd r)) in
      let^ n := dname (d_name (decl_of o)) in
      put ($" " ++ n) ;;^ print_chain a stk'
  end.

(** print_help_sections (108-140) *)
Definition print_help_sections (p : program) (a : argus) (T : list opt) (D : help_data) : DM unit :=
  (match hd_positionals D with
   | [] => dret tt
   | l => put ([newline] ++ $"Arguments:" ++ [newline]) ;;^ print_list print_positional T l
   end) ;;^
  print_groups T (hd_groups D) ;;^
  (match hd_ungrouped D with
   | [] => dret tt
   | l => put ([newline] ++ $"Options:" ++ [newline]) ;;^ print_list print_option T l
   end) ;;^
  (match hd_subcommands D with
   | [] => dret tt
   | l =>
       put ([newline] ++ $"Commands:" ++ [newline]) ;;^ print_list print_subcommand T l ;;^
       put ([newline] ++ $"Run '" ++ p_name p) ;;^ print_chain a (a_stack a) ;;^
       put ($" COMMAND --help' for more information on a command." ++ [newline])
   end).
End render.

(** display_help (help_display.c 24-35) *)
Definition display_help `{Libc, Printf} (p : program) (a : argus) (command : option nat) : DM unit :=
  let^ t := match command with
            | Some t => dret (Some t)
            | None => dlift (get_active_options a)
            end in
  let^ T := dlift (table_ptr t a) in
  let^ D := organize_options T in
  print_help_sections (p_config p) (a_prefix a) p a T D ;;^
  free_help_data D ;;^ put [newline].

(** display_usage (usage_display.c 15-59) *)
Fixpoint print_usage_positionals (T : list opt) : DM unit :=
  match T with
  | [] => dret tt
  | o :: T' =>
      match d_type (decl_of o) with
      | TPositional =>
          let^ n := dname (d_name (decl_of o)) in
          put ($" " ++ bracketed (decl_of o) n) ;;^ print_usage_positionals T'
      | _ => print_usage_positionals T'
      end
  end.
Definition have_subcommand (T : list opt) : bool :=
  existsb (fun o => match d_type (decl_of o) with TSubcommand => true | _ => false end) T.
Definition display_usage (p : program) (a : argus) : DM unit :=
  let^ t := dlift (get_active_options a) in
  put ($"Usage: " ++ p_name p) ;;^
  print_chain a (a_stack a) ;;^
  put ($" [OPTIONS]") ;;^
  let^ T := dlift (table_ptr t a) in
  print_usage_positionals T ;;^
  put (if have_subcommand T then $" COMMAND" else []) ;;^
  put [newline].

(** display_version (version_display.c 14-25) *)
Definition display_version (p : program) : DM unit :=
  put (p_name p ++ match p_version p with Some v => $" v" ++ v | None => [] end ++ [newline] ++
       match p_description p with Some t => [newline] ++ t ++ [newline] | None => [] end).

(** ** Command overviews (command_display.c) *)

(** print_command_line (22-40) *)
Definition print_command_line (c : helper_config) (path : cstr) (help : option cstr) : DM unit :=
  put ($"  " ++ path) ;;^
  put (spaces (if (length path + 2 <? description_column c)%nat
               then description_column c - length path - 2 else 2)) ;;^
  put (match help with Some h => $"- " ++ h | None => [] end ++ [newline]).

(** print_subcommand_paths (42-69); [fuel] bounds the depth of the C recursion (a cyclic
    description overflows the stack); the loop over the table is [T] *)
Fixpoint print_subcommand_paths (fuel : nat) (c : helper_config) (a : argus) (t : nat)
    (base : cstr) (first : bool) : DM unit :=
  match fuel with
  | O => dlift (UB StackOverflow)
  | S fuel' =>
      let^ T := dlift (table a t) in
      (fix loop (T : list opt) (started first : bool) : DM unit :=
         match T with
         | [] => dret tt
         | o :: T' =>
             match d_type (decl_of o) with
             | TSubcommand =>
                 put (if negb started && negb first then [newline] else []) ;;^
                 let^ n := dname (d_name (decl_of o)) in
                 let path := snprintf 512 (base ++ $" " ++ n) in
                 print_command_line c path (d_help (decl_of o)) ;;^
                 (match d_sub (decl_of o) with
                  | Some t' => print_subcommand_paths fuel' c a t' path true
                  | None => dret tt
                  end) ;;^
                 loop T' true false
             | _ => loop T' started first
             end
         end) T false first
  end.

(** display_available_subcommands (71-87) for the command at [r] *)
Definition display_available_subcommands (fuel : nat) (p : program) (a : argus) (r : nat * nat)
  : DM unit :=
  let^ o := dlift (get_option a (fst r) (snd r)) in
  let^ n := dname (d_name (decl_of o)) in
  put ($"The '" ++ n ++ $"' command cannot be executed by itself." ++ [newline; newline]) ;;^
  put ($"Available commands:" ++ [newline]) ;;^
  (match d_sub (decl_of o) with
   | Some t => print_subcommand_paths fuel (p_config p) a t n true
   | None => dret tt
   end) ;;^
  put ([newline] ++ $"Run '" ++ p_name p) ;;^
  print_chain a (a_stack a) ;;^
  put ($" SUBCOMMAND --help' for more information." ++ [newline]).

(** has_executable_subcommands (89-102) *)
Definition is_runnable (o : opt) : bool :=
  match d_type (decl_of o), d_action (decl_of o) with
  | TSubcommand, Some _ => true
  | _, _ => false
  end.
Definition has_executable_subcommands (a : argus) (d : decl) : res bool :=
  match d_sub d with
  | None => Ok false
  | Some t => let* T := table a t in Ok (existsb is_runnable T)
  end.

(** print_simple_commands_group (110-127) *)
Fixpoint print_simple_commands (p : program) (a : argus) (T : list opt) : DM bool :=
  match T with
  | [] => dret false
  | o :: T' =>
      let^ simple := if is_runnable o
                     then let^ ex := dlift (has_executable_subcommands a (decl_of o)) in
                          dret (negb ex)
                     else dret false in
      if simple then
        let^ n := dname (d_name (decl_of o)) in
        print_command_line (p_config p) (snprintf 512 (p_name p ++ $" " ++ n))
          (d_help (decl_of o)) ;;^
        let^ _ := print_simple_commands p a T' in dret true
      else print_simple_commands p a T'
  end.

(** The inner loop of print_command_families (151-161) *)
Fixpoint print_family (p : program) (base : cstr) (T : list opt) : DM unit :=
  match T with
  | [] => dret tt
  | o :: T' =>
      (if is_runnable o then
         let^ n := dname (d_name (decl_of o)) in
         print_command_line (p_config p) (snprintf 1024 (base ++ $" " ++ n)) (d_help (decl_of o))
       else dret tt) ;;^
      print_family p base T'
  end.
(** print_command_families (129-165) *)
Fixpoint print_command_families (p : program) (a : argus) (printed first : bool) (T : list opt)
  : DM unit :=
  match T with
  | [] => dret tt
  | o :: T' =>
      let^ ex := match d_type (decl_of o) with
                 | TSubcommand => dlift (has_executable_subcommands a (decl_of o))
                 | _ => dret false
                 end in
      if ex then
        put (if printed || negb first then [newline] else []) ;;^
        let^ n := dname (d_name (decl_of o)) in
        let base := snprintf 512 (p_name p ++ $" " ++ n) in
        (match d_action (decl_of o) with
         | Some _ => print_command_line (p_config p) base (d_help (decl_of o))
         | None => dret tt
         end) ;;^
        let^ U := dlift (table_ptr (d_sub (decl_of o)) a) in
        print_family p base U ;;^
        print_command_families p a false false T'
      else print_command_families p a printed first T'
  end.

(** display_all_commands (167-179) *)
Definition display_all_commands (p : program) (a : argus) : DM unit :=
  put ($"No command specified." ++ [newline; newline]) ;;^
  put ($"Available commands:" ++ [newline]) ;;^
  let^ T := dlift (table a (a_root a)) in
  let^ printed := print_simple_commands p a T in
  print_command_families p a printed true T ;;^
  put ([newline] ++ $"Run '" ++ p_name p ++
       $" COMMAND --help' for more information on a specific command." ++ [newline]).

(** ** The public functions (source/api/argus_display.c): argus_print_help (19-22),
    argus_print_usage (29-32), argus_print_version (39-42) *)
Definition argus_print_help `{Libc, Printf} (p : program) (a : argus) : DM unit := display_help p a None.
Definition argus_print_usage (p : program) (a : argus) : DM unit := display_usage p a.
Definition argus_print_version (p : program) : DM unit := display_version p.
