(** * Help, usage and command screens: properties C29 (help), C44, C45, C46, C47, C53, C54, C55, C56, C57 *)
From stdpp Require Import sets.
From Coq Require Import Lia.
From Verif Require Import Macros Validate Api SpecCommands DisplayFacts ExLib ExDisplay.

Definition heap0 : heap := Heap [] [].
Definition screen (m : DM unit) : option cstr :=
  match m (Dst [] heap0) with Shown (_, s) => Some (s_out s) | _ => None end.

(** ** C44 *)

(** The organiser: the lists of the groups and the list of ungrouped options hold together every
    visible option once and no other; each list is in the order of the table; groups come in the
    order of their first options; positionals and subcommands are all listed, in order. *)
Theorem C44_organized T s :
  oom (s_heap s) = [] ->
  exists D h', organize_options T s = Shown (D, Dst (s_out s) h') /\ organized T D /\
    Permutation (concat (map (fun g => map snd (g_options g)) (hd_groups D)) ++ map snd (hd_ungrouped D))
      (positions (fun _ => visible) T).
Proof.
  intros O. destruct (organize_ok T s O) as (D & h' & E & K). exists D, h'.
  split; [exact E|]. split; [exact K|exact (organized_once T D K)].
Qed.
Print Assumptions C44_organized.
(** The screen: the sections show the entries of these lists, one after the other, and nothing
    else is printed. *)
Theorem C44_screen `{Libc, Printf} p a command t T names s :
  printf_ok -> good_config (p_config p) -> showable_table (a_prefix a) T ->
  fitting_table (p_config p) (a_prefix a) T -> selected a names ->
  match command with Some c => Some c = t | None => get_active_options a = Ok t end ->
  table_ptr t a = Ok T -> oom (s_heap s) = [] ->
  exists u h', display_help p a command s = Shown (tt, Dst (s_out s ++ u) h') /\
    released (s_heap s) h' /\ help_screen p (a_prefix a) names T u.
Proof. exact (help_exact p a command t T names s). Qed.
Print Assumptions C44_screen.
(** A table with two groups, a hidden option and two subcommands meets the conditions. *)
Example C44_example : exists u h',
  display_help (H := libc0) (H0 := printf0) ex_program ex_help_ctx None (Dst [] heap0) =
    Shown (tt, Dst ([] ++ u) h') /\ released heap0 h' /\
  help_screen (H := libc0) (H0 := printf0) ex_program (Some ($"APP")) [] T_help u.
Proof.
  apply (C44_screen (H := libc0) (H0 := printf0) ex_program ex_help_ctx None (Some 0%nat) T_help [] (Dst [] heap0)).
  - apply printf0_ok.
  - split; [cbn; lia|reflexivity].
  - apply showable_tableb_ok. vm_compute. reflexivity.
  - apply fitting_tableb_ok. vm_compute. reflexivity.
  - constructor.
  - vm_compute. reflexivity.
  - reflexivity.
  - reflexivity.
Qed.
(** … and the screen is not trivial. *)
Example C44_example_text :
  screen (display_help (H := libc0) (H0 := printf0) ex_program ex_help_ctx None) = Some (
    [newline] ++ $"Network:" ++ [newline] ++
    $"  -m, --mode <STR>              - How to run [fast|slow|automatic|never] (env: APP_MODE)" ++ [newline] ++
    $"                                  (deprecated)" ++ [newline] ++
    $"  -t, --tags <TAG,...>          - Tags" ++ [newline] ++
    [newline] ++ $"Options:" ++ [newline] ++
    $"  -h, --help                    - Show help message (exit)" ++ [newline] ++
    $"  -V, --version                 - Show version information (exit)" ++ [newline] ++
    $"  -p, --port <1-65535>          - Port to listen on (default: 80, env: APP_PORT)" ++ [newline] ++
    $"  -v                            - Say more about what is done, and why it is done; this text is cut" ++ [newline] ++
    $"                                  into two lines" ++ [newline] ++
    [newline] ++ $"Commands:" ++ [newline] ++
    $"  run                           - Run it" ++ [newline] ++
    $"  inner                         - Not shown" ++ [newline] ++
    [newline] ++ $"Run 'prog COMMAND --help' for more information on a command." ++ [newline] ++
    [newline]).
Proof. vm_compute. reflexivity. Qed.
(** FLAG_HIDDEN is allowed on a subcommand but has no effect there: hidden subcommands are
    listed.  ([lists]: the table is accepted, entry [i] is hidden and shown.) *)
Theorem C44_hidden_subcommand_refuted : exists tabs a T i o D h',
  argus_init (H := libc0) 4 tabs 0 0 = Ok (Some a, O) /\ tabs !! O = Some T /\
  T !! i = Some o /\ entry_is TSubcommand o = true /\ N.testbit (d_flags (decl_of o)) 1 = true /\
  organize_options T (Dst [] heap0) = Shown (D, Dst [] h') /\ i ∈ map snd (hd_subcommands D).
Proof.
  set (R := organize_options T_help (Dst [] heap0)).
  set (D := match R with Shown (D, _) => D | _ => HelpData [] [] [] [] end).
  set (h' := match R with Shown (_, s) => s_heap s | _ => heap0 end).
  exists ex_help, (make_argus ex_help 0 None), T_help, 10%nat,
    (SUBCOMMAND (Some ($"inner")) (Some 1%nat) [HELP ($"Not shown"); FLAGS FLAG_HIDDEN; ACTION 8]), D, h'.
  split; [vm_compute; reflexivity|]. split; [reflexivity|]. split; [reflexivity|]. split; [reflexivity|].
  split; [reflexivity|]. split; [vm_compute; reflexivity|].
  apply (bool_decide_eq_true_1 _). vm_compute. reflexivity.
Qed.
Print Assumptions C44_hidden_subcommand_refuted.

(** ** C45 *)

(** Every width with room for a column: the text is cut into lines that fit, each break drops at
    most one space or newline, and breaks at the last space that fits. *)
Theorem C45_wrapped text indent width out h :
  text <> [] -> (indent + 2 < width)%nat -> Z.of_nat width < two64 ->
  exists ls, print_wrapped_text text indent width (Dst out h) =
      Shown (tt, Dst (out ++ layout (spaces (indent + 2)) ls) h) /\
    cut_into (width - indent - 2) text ls /\
    Forall (fun l => (length l <= width - indent - 2)%nat) ls /\ rejoined ls text.
Proof. exact (wrapped_lines text indent width out h). Qed.
Print Assumptions C45_wrapped.
(** Words that are shorter than a line are never broken. *)
Theorem C45_words ws indent width out h :
  ws <> [] -> Forall is_word ws -> Forall (fun w => (length w < width - indent - 2)%nat) ws ->
  (indent + 2 < width)%nat -> Z.of_nat width < two64 ->
  exists wss, concat wss = ws /\
    print_wrapped_text (unwords ws) indent width (Dst out h) =
      Shown (tt, Dst (out ++ layout (spaces (indent + 2)) (map unwords wss)) h).
Proof. exact (wrapped_words ws indent width out h). Qed.
Print Assumptions C45_words.
(** Whatever the width, the loop ends unless the width is exactly the indentation plus two. *)
Theorem C45_ends text indent width :
  (Z.of_nat width - Z.of_nat indent - 2) mod two64 <> 0 ->
  exists t, print_wrapped_text text indent width = put t.
Proof. exact (wrapped_ends text indent width). Qed.
Print Assumptions C45_ends.
Example C45_example :
  let text := $"one two three" ++ [newline] ++ $"averyveryverylongword x" in
  screen (print_wrapped_text text 2 12) =
  Some ($"one two" ++ [newline] ++ $"    three" ++ [newline] ++ $"    averyver" ++ [newline] ++
        $"    yverylon" ++ [newline] ++ $"    gword x") /\
  screen (print_wrapped_text (unwords [$"ab"; $"cd"; $"efg"; $"h"]) 0 7) =
  Some ($"ab" ++ [newline] ++ $"  cd" ++ [newline] ++ $"  efg" ++ [newline] ++ $"  h").
Proof. split; vm_compute; reflexivity. Qed.
(** At that width any text other than newlines is printed for ever. *)
Theorem C45_boundary_refuted text indent s :
  (exists c, c ∈ text /\ c <> newline) ->
  print_wrapped_text text indent (indent + 2) s = Endless /\
  forall fuel, wrap_loop fuel text indent (wrap_room indent (indent + 2)) 0 = None.
Proof. exact (wrapped_endless text indent s). Qed.
Print Assumptions C45_boundary_refuted.
(** … so a program that sets description_column = 98 (line width 100) hangs when help is asked for. *)
Theorem C45_help_endless_refuted : exists p,
  max_line_width (p_config p) = 100%nat /\ description_column (p_config p) = 98%nat /\
  display_help (H := libc0) (H0 := printf0) p ex_help_ctx None (Dst [] heap0) = Endless.
Proof.
  exists (Program ($"prog") None None (HelperConfig 100 98 2 20 false)).
  split; [reflexivity|]. split; [reflexivity|]. vm_compute. reflexivity.
Qed.
Print Assumptions C45_help_endless_refuted.
(** One column less: the subtraction wraps around and the text is not wrapped at all. *)
Theorem C45_unwrapped_refuted :
  screen (print_wrapped_text ($"one two three four") 10 11) = Some ($"one two three four").
Proof. vm_compute. reflexivity. Qed.
Print Assumptions C45_unwrapped_refuted.
(** A last line that fits exactly is broken all the same. *)
Theorem C45_exact_fit_refuted :
  length ($"one two") = (11 - 2 - 2)%nat /\
  screen (print_wrapped_text ($"one two") 2 11) = Some ($"one" ++ [newline] ++ $"    two").
Proof. split; vm_compute; reflexivity. Qed.
Print Assumptions C45_exact_fit_refuted.

(** ** C46 *)

(** The text made for a list of choices. *)
Theorem C46_strings `{Libc} l :
  Forall (fun t => terminator ∉ t) l ->
  Z.of_nat (total_room (map length l)) + 1 <= two64 ->
  choices_text (ChStr l) = Ok (bars l).
Proof. exact (choices_str l). Qed.
Print Assumptions C46_strings.
Theorem C46_integers `{Libc} l :
  Forall (fun z => - 9223372036854775808 <= z < 9223372036854775808) l ->
  Z.of_nat (length l) <= 100000000000000000 ->
  choices_text (ChInt l) = Ok (bars (map dec l)).
Proof. exact (choices_int l). Qed.
Print Assumptions C46_integers.
Theorem C46_floats_partial `{Libc} l :
  Forall (fun z => (length (fmt_2g z) <= 20)%nat /\ terminator ∉ fmt_2g z) l ->
  Z.of_nat (length l) <= 100000000000000000 ->
  choices_text (ChFloat l) = Ok (bars (map fmt_2g l)).
Proof. exact (choices_float l). Qed.
Print Assumptions C46_floats_partial.
Example C46_example :
  choices_text (H := libc0) (ChStr [$"fast"; $"slow"; []]) = Ok ($"fast|slow|") /\
  choices_text (H := libc0) (ChInt [-9223372036854775808; 0; 443]) = Ok ($"-9223372036854775808|0|443").
Proof. split; vm_compute; reflexivity. Qed.
(** Floats are shown with two significant digits: different choices look the same.  [libc_2g]
    prints 1.5 and 1.54 as the C library does. *)
Definition bits_1_54 : Z := 4609614362598797476.
Definition libc_2g : Libc := {|
  getenv := fun _ => None; strtod := strtod0; strtof := fun s => fst (strtod0 s);
  qsort := @insertion_sort; regex_enabled := true; regex_match := fun _ _ => RxMatch;
  fmt_f := fun _ => [];
  fmt_2g := fun z => if (z =? bits_1_5) || (z =? bits_1_54) then $"1.5" else [] |}.
Theorem C46_floats_refuted :
  choices_text (H := libc_2g) (ChFloat [bits_1_5; bits_1_54]) = Ok ($"1.5|1.5").
Proof. vm_compute. reflexivity. Qed.
Print Assumptions C46_floats_refuted.
(** In a description the list is cut at 255 characters. *)
Definition many_choices : list cstr := replicate 40 ($"choice").
Definition described (d : decl) : option cstr :=
  match build_option_description (H := libc0) (H0 := printf0) default_config None d (Dst [] heap0) with
  | Shown (Some l, s) => match blocks (s_heap s) !! l with Some (Some (BStr t)) => Some t | _ => None end
  | _ => None
  end.
Theorem C46_cut_refuted : exists d t,
  d_validators d = Some [VEntry (VChoicesStr many_choices) ORDER_POST] /\ described d = Some t /\
  (length t < length (bars many_choices))%nat.
Proof.
  set (d := decl_of (OPTION_STRING "m" None [HELP []; VALIDATOR [VEntry (VChoicesStr many_choices) ORDER_POST]])).
  exists d, (default [] (described d)). split; [reflexivity|]. split; [vm_compute; reflexivity|].
  apply Nat.ltb_lt. vm_compute. reflexivity.
Qed.
Print Assumptions C46_cut_refuted.

(** ** C47 *)

(** A destination of [length b] bytes, of which the caller declares [size]. *)
Theorem C47_strcpy b size s :
  0 <= size <= Z.of_nat (length b) ->
  safe_strcpy (Some b) size (Some s) =
  if Z.of_nat (length s) <? size
  then Ok (true, Some (map Some s ++ Some terminator :: drop (S (length s)) b))
  else Ok (false, Some b).
Proof. exact (safe_strcpy_spec b size s). Qed.
Print Assumptions C47_strcpy.
Theorem C47_strncpy b size s count :
  0 < size <= Z.of_nat (length b) -> 0 <= count -> terminator ∉ s ->
  let n := Z.to_nat (Z.min count (size - 1)) in
  exists rest,
    safe_strncpy (Some b) size (Some s) count =
      Ok (true, Some (map Some (take n s) ++ Some terminator :: rest)) /\
    length (map Some (take n s) ++ Some terminator :: rest) = length b /\
    drop (Z.to_nat size) (map Some (take n s) ++ Some terminator :: rest) = drop (Z.to_nat size) b.
Proof. exact (safe_strncpy_spec b size s count). Qed.
Print Assumptions C47_strncpy.
(** Concatenation: the destination holds the text [d]. *)
Theorem C47_strcat b size d rest s :
  0 <= size <= Z.of_nat (length b) -> holds b d rest ->
  Z.of_nat (length d) + Z.of_nat (length s) < two64 ->
  safe_strcat (Some b) size (Some s) =
  if Z.of_nat (length d) + Z.of_nat (length s) <? size
  then Ok (true, Some (map Some (d ++ s) ++ Some terminator :: drop (length s) rest))
  else Ok (false, Some b).
Proof. exact (safe_strcat_spec b size d rest s). Qed.
Print Assumptions C47_strcat.
(** … for safe_strncat it must end within the declared size. *)
Theorem C47_strncat_partial b size d rest s count :
  0 < size <= Z.of_nat (length b) -> size < two64 -> holds b d rest ->
  Z.of_nat (length d) < size -> 0 <= count ->
  let room := size - 1 - Z.of_nat (length d) in
  let t := take (Z.to_nat (Z.min count room)) s in
  safe_strncat (Some b) size (Some s) count =
  if room =? 0 then Ok (false, Some b)
  else Ok (true, Some (map Some (d ++ t) ++ Some terminator :: drop (length t) rest)).
Proof. exact (safe_strncat_spec b size d rest s count). Qed.
Print Assumptions C47_strncat_partial.
(** … otherwise the declared size has no effect: the text is added if the destination itself has
    room for it, and else bytes behind the destination are written. *)
Theorem C47_strncat_beyond b size d rest s count :
  0 < size <= Z.of_nat (length d) -> Z.of_nat (length b) < two64 -> holds b d rest ->
  0 <= count < two64 - Z.of_nat (length b) ->
  let t := take (Z.to_nat count) s in
  safe_strncat (Some b) size (Some s) count =
  if (length d + length t <? length b)%nat
  then Ok (true, Some (map Some (d ++ t) ++ Some terminator :: drop (length t) rest))
  else UB OutOfBounds.
Proof. exact (safe_strncat_wrap b size d rest s count). Qed.
Print Assumptions C47_strncat_beyond.
Example C47_beyond_example :
  let b := map Some ($"abc") ++ Some terminator :: replicate 2 None in
  holds b ($"abc") (replicate 2 None) /\ 
  safe_strncat (Some b) 3 (Some ($"de")) 2 = Ok (true, Some (map Some ($"abcde") ++ [Some terminator])) /\
  safe_strncat (Some b) 3 (Some ($"def")) 3 = UB OutOfBounds.
Proof.
  intros b. split; [split; [reflexivity|]|].
  - apply (bool_decide_eq_false_1 _). reflexivity.
  - split; vm_compute; reflexivity.
Qed.
(** safe_strndup: from a terminated string, and from [n] bytes without a terminator. *)
Theorem C47_strndup b s rest n :
  holds b s rest ->
  safe_strndup b n true = Ok (Some (map Some (take n s) ++ [Some terminator])).
Proof. exact (safe_strndup_spec b s rest n). Qed.
Print Assumptions C47_strndup.
Theorem C47_strndup_unterminated s rest n :
  terminator ∉ s -> length s = n ->
  safe_strndup (map Some s ++ rest) n true = Ok (Some (map Some s ++ [Some terminator])).
Proof. exact (safe_strndup_bare s rest n). Qed.
Print Assumptions C47_strndup_unterminated.
(** Null pointers and a size of zero are refused. *)
Theorem C47_refused b s size count :
  safe_strcpy None size s = Ok (false, None) /\ safe_strcpy b size None = Ok (false, b) /\
  safe_strcpy b 0 s = Ok (false, b) /\
  safe_strncpy None size s count = Ok (false, None) /\ safe_strncpy b size None count = Ok (false, b) /\
  safe_strncpy b 0 s count = Ok (false, b) /\
  safe_strcat None size s = Ok (false, None) /\ safe_strcat b size None = Ok (false, b) /\
  safe_strcat b 0 s = Ok (false, b) /\
  safe_strncat None size s count = Ok (false, None) /\ safe_strncat b size None count = Ok (false, b) /\
  safe_strncat b 0 s count = Ok (false, b).
Proof. split_and!; destruct b, s; reflexivity. Qed.
Print Assumptions C47_refused.
Example C47_example :
  let b := map Some ($"abc") ++ Some terminator :: replicate 4 None in
  holds b ($"abc") (replicate 4 None) /\
  safe_strcat (Some b) 8 (Some ($"defg")) = Ok (true, Some (map Some ($"abcdefg") ++ [Some terminator])) /\
  safe_strcat (Some b) 8 (Some ($"defgh")) = Ok (false, Some b) /\
  safe_strncat (Some b) 6 (Some ($"defgh")) 10 =
    Ok (true, Some (map Some ($"abcde") ++ [Some terminator; None; None])) /\
  safe_strcpy (Some b) 4 (Some ($"xyz")) = Ok (true, Some (map Some ($"xyz") ++ Some terminator :: replicate 4 None)) /\
  safe_strncpy (Some b) 8 (Some ($"xy")) 5 =
    Ok (true, Some (map Some ($"xy") ++ replicate 4 (Some terminator) ++ [None; None])).
Proof.
  intros b. split; [split; [reflexivity|]|].
  - apply (bool_decide_eq_false_1 _). reflexivity.
  - split_and!; vm_compute; reflexivity.
Qed.
(** The declared size is smaller than the text in the destination: the subtraction wraps around
    and safe_strncat writes outside the destination. *)
Theorem C47_strncat_refuted : exists b s,
  length b = 8%nat /\ holds b ($"abcde") (replicate 2 None) /\
  safe_strncat (Some b) 4 (Some s) 10 = UB OutOfBounds.
Proof.
  exists (map Some ($"abcde") ++ Some terminator :: replicate 2 None), ($"fghij").
  split; [reflexivity|]. split; [split; [reflexivity|]|vm_compute; reflexivity].
  apply (bool_decide_eq_false_1 _). reflexivity.
Qed.
Print Assumptions C47_strncat_refuted.

(** ** C29, second half: the name shown in the help is the one that is consulted *)
Theorem C29_shown_name prefix d : env_name_for_display prefix d = get_env_var_name prefix d.
Proof. reflexivity. Qed.
Print Assumptions C29_shown_name.
(** … and the description contains it (unless it has more than 247 characters). *)
Theorem C29_in_help `{Libc, Printf} c prefix d s n :
  printf_ok -> showable prefix d -> fits prefix d -> oom (s_heap s) = [] ->
  get_env_var_name prefix d = Some n ->
  exists l h' t, build_option_description c prefix d s = Shown (Some l, Dst (s_out s) h') /\
    blocks h' !! l = Some (Some (BStr t)) /\ shows ($"env: " ++ n ++ $")") t.
Proof. exact (env_in_help c prefix d s n). Qed.
Print Assumptions C29_in_help.
Example C29_help_example :
  let d := decl_of (OPTION_INT "p" (Some ($"port")) [hlp; FLAGS FLAG_AUTO_ENV]) in
  showable (Some ($"APP")) d /\ fits (H0 := printf0) (H := libc0) (Some ($"APP")) d /\
  get_env_var_name (Some ($"APP")) d = Some ($"APP_PORT").
Proof.
  split; [apply showableb_ok; vm_compute; reflexivity|].
  split; [apply fitsb_ok; vm_compute; reflexivity|reflexivity].
Qed.
(** A longer name is cut. *)
Theorem C29_help_cut_refuted : exists d n t,
  env_name_for_display None d = Some n /\ described d = Some t /\ ~ shows n t.
Proof.
  set (d := decl_of (OPTION_INT "p" None [HELP []; FLAGS FLAG_NO_ENV_PREFIX; ENV_VAR (replicate 300 "X"%char)])).
  exists d, (replicate 300 "X"%char), (default [] (described d)).
  split; [reflexivity|]. split; [vm_compute; reflexivity|].
  intros (u & v & E). apply (f_equal length) in E. rewrite !app_length, replicate_length in E.
  assert (L : length (default [] (described d)) = 255%nat) by (vm_compute; reflexivity).
  rewrite L in E. lia.
Qed.
Print Assumptions C29_help_cut_refuted.

(** ** C53 *)

(** If every note fits its buffer, the description is the help text, a note for every validator
    (unless it is shown as the hint), the default value, the variable and the attributes. *)
Theorem C53_description_partial `{Libc, Printf} c prefix d s :
  printf_ok -> showable prefix d -> fits prefix d -> oom (s_heap s) = [] ->
  exists l h', build_option_description c prefix d s = Shown (Some l, Dst (s_out s) h') /\
    blocks h' !! l = Some (Some (BStr (description c prefix d))).
Proof. exact (description_exact c prefix d s). Qed.
Print Assumptions C53_description_partial.
Definition ex_described : decl := decl_of (OPTION_INT "p" (Some ($"port"))
  [HELP ($"Port"); DEFAULT (DInt 80); VALIDATOR [V_RANGE 1 99; VEntry (VChoicesInt [80; 81]) ORDER_POST];
   ENV_VAR ($"PORT"); FLAGS (N.lor FLAG_REQUIRED FLAG_EXPERIMENTAL)]).
Example C53_example :
  showable (Some ($"APP")) ex_described /\
  fits (H0 := printf0) (H := libc0) (Some ($"APP")) ex_described /\
  description (H := libc0) (H0 := printf0) default_config (Some ($"APP")) ex_described =
    $"Port (range: 1-99) [80|81] (default: 80, env: APP_PORT) (required) (experimental)".
Proof.
  split; [apply showableb_ok; vm_compute; reflexivity|].
  split; [apply fitsb_ok; vm_compute; reflexivity|vm_compute; reflexivity].
Qed.
(** The attributes do not fit 31 characters: the last one is left out. *)
Theorem C53_attribute_refuted : exists d,
  N.testbit (d_flags d) 4 = true /\ described d = Some ($"text (exit) (deprecated)").
Proof.
  exists (decl_of (OPTION_FLAG "x" None [hlp; FLAGS (N.lor FLAG_EXIT (N.lor FLAG_DEPRECATED FLAG_EXPERIMENTAL))])).
  split; vm_compute; reflexivity.
Qed.
Print Assumptions C53_attribute_refuted.
(** The limits of a range do not fit 31 characters: the upper limit is cut and so is wrong. *)
Theorem C53_range_refuted :
  described (decl_of (OPTION_INT "x" None
    [hlp; VALIDATOR [V_RANGE (-9223372036854775808) 9223372036854775807]])) =
  Some ($"text (range: -9223372036854775808-9223372036)").
Proof. vm_compute. reflexivity. Qed.
Print Assumptions C53_range_refuted.
(** A default of more than 115 characters is cut, with the closing quote and bracket. *)
Theorem C53_default_refuted :
  described (decl_of (OPTION_STRING "x" None [hlp; DEFAULT (DString (replicate 200 "y"%char))])) =
  Some ($"text (default: " ++ [ascii_of_nat 34] ++ replicate 115 "y"%char).
Proof. vm_compute. reflexivity. Qed.
Print Assumptions C53_default_refuted.
(** The default of a collection is not shown. *)
Theorem C53_collection_refuted :
  described (decl_of (OPTION_ARRAY_STRING "x" None [hlp; DEFAULT (DString ($"a,b"))])) =
  Some ($"text (default: )").
Proof. vm_compute. reflexivity. Qed.
Print Assumptions C53_collection_refuted.

(** ** C54 *)

(** Asking for help ends, performs no bad access and releases what it allocated: with ample memory,
    and whatever allocations fail if the table has no groups. *)
Theorem C54_safe_partial `{Libc, Printf} p a command t T names s :
  printf_ok -> endable (p_config p) -> showable_table (a_prefix a) T -> selected a names ->
  match command with Some c => Some c = t | None => get_active_options a = Ok t end ->
  table_ptr t a = Ok T ->
  (oom (s_heap s) = [] \/ Forall (fun o => is_group o = false) T) ->
  exists u h', display_help p a command s = Shown (tt, Dst (s_out s ++ u) h') /\ released (s_heap s) h'.
Proof. exact (help_safe p a command t T names s). Qed.
Print Assumptions C54_safe_partial.
(** The second subcommand screen, with failing allocations. *)
Example C54_example : exists u h',
  display_help (H := libc0) (H0 := printf0) ex_program ex_help_ctx (Some 1%nat)
    (Dst [] (Heap [] [false; true; false; true; true])) = Shown (tt, Dst ([] ++ u) h') /\
  released (Heap [] [false; true; false; true; true]) h'.
Proof.
  apply (C54_safe_partial (H := libc0) (H0 := printf0) ex_program ex_help_ctx (Some 1%nat) (Some 1%nat)
    (default [] (ex_help !! 1%nat)) [] (Dst [] (Heap [] [false; true; false; true; true]))).
  - apply printf0_ok.
  - vm_compute. discriminate.
  - apply showable_tableb_ok. vm_compute. reflexivity.
  - constructor.
  - reflexivity.
  - reflexivity.
  - right. repeat constructor.
Qed.
(** The record of a group cannot be allocated: it is used nevertheless. *)
Theorem C54_group_refuted :
  display_help (H := libc0) (H0 := printf0) ex_program ex_help_ctx None
    (Dst [] (Heap [] [false; false; false; true])) = Fault NullDeref.
Proof. vm_compute. reflexivity. Qed.
Print Assumptions C54_group_refuted.

(** ** C55 *)
Theorem C55_usage p a t T names out h :
  get_active_options a = Ok t -> table_ptr t a = Ok T -> selected a names ->
  (forall o, o ∈ T -> entry_is TPositional o = true -> is_Some (d_name (decl_of o))) ->
  exists h', display_usage p a (Dst out h) = Shown (tt, Dst (out ++ usage_line p names T) h') /\
    released h h'.
Proof. exact (usage_exact p a t T names out h). Qed.
Print Assumptions C55_usage.
Definition ex_selected : argus := Argus ex_help 0 [(0%nat, 9%nat)] 0 heap0 [] None.
Example C55_example :
  selected ex_selected [$"run"] /\ get_active_options ex_selected = Ok (Some 1%nat) /\
  screen (display_usage ex_program ex_selected) = Some ($"Usage: prog run [OPTIONS] <what> [files...]" ++ [newline]).
Proof.
  split.
  - constructor; [|constructor]. eexists. split; [vm_compute; reflexivity|reflexivity].
  - split; vm_compute; reflexivity.
Qed.

(** ** C56 *)

(** Without a selected command: every runnable command of the first two levels, in blocks. *)
Theorem C56_overview p a T out h :
  a_tabs a !! a_root a = Some T -> short_paths (p_name p) (a_tabs a) T ->
  display_all_commands p a (Dst out h) = Shown (tt, Dst (out ++ overview p (a_tabs a) T) h).
Proof. exact (fun ET SP => all_commands_exact p a T ET SP (Dst out h)). Qed.
Print Assumptions C56_overview.
Theorem C56_listed_partial p a T o h t d :
  a_tabs a !! a_root a = Some T -> short_paths (p_name p) (a_tabs a) T -> o ∈ T ->
  display_all_commands p a (Dst [] h) = Shown (d, Dst t h) ->
  (runnable o = true -> shows (line_of (p_config p) (p_name p) o) t) /\
  (entry_is TSubcommand o = true -> forall o', o' ∈ children (a_tabs a) o -> runnable o' = true ->
   shows (line_of (p_config p) (path_under (p_name p) (name_of o)) o') t).
Proof.
  intros ET SP Ho E. rewrite (all_commands_exact p a T ET SP (Dst [] h)) in E. injection E as _ <-.
  exact (conj (overview_first p (a_tabs a) T o Ho)
              (fun S o' Ho' R => overview_second p (a_tabs a) T o o' Ho S Ho' R)).
Qed.
Print Assumptions C56_listed_partial.
(** With a selected command that cannot be run: everything below it, each command followed by the
    commands below it. *)
Theorem C56_below p a r o n k T body names out h :
  get_option a (fst r) (snd r) = Ok o -> d_name (decl_of o) = Some n ->
  d_sub (decl_of o) = Some k -> a_tabs a !! k = Some T ->
  lists_below (p_config p) (a_tabs a) n T body -> selected a names ->
  exists f0, forall fuel, (f0 <= fuel)%nat ->
    display_available_subcommands fuel p a r (Dst out h) =
    Shown (tt, Dst (out ++ below_screen p names n body) h).
Proof.
  intros E N D ET B Sel. destruct (available_exact p a r o n k T body names E N D ET B Sel) as [f0 K].
  exists f0. intros fuel F. exact (K fuel F (Dst out h)).
Qed.
Print Assumptions C56_below.

(** prog run, prog remote {add, remove {all}}, prog deep {down {bottom}} *)
Definition ex_commands : list (list opt) :=
  [[HELP_OPTION;
    SUBCOMMAND (Some ($"run")) (Some 1%nat) [HELP ($"Run it"); ACTION 7];
    SUBCOMMAND (Some ($"remote")) (Some 2%nat) [HELP ($"Remotes")];
    SUBCOMMAND (Some ($"deep")) (Some 4%nat) [HELP ($"Deep")]];
   [HELP_OPTION];
   [HELP_OPTION;
    SUBCOMMAND (Some ($"add")) (Some 1%nat) [HELP ($"Add"); ACTION 1];
    SUBCOMMAND (Some ($"remove")) (Some 3%nat) [HELP ($"Remove"); ACTION 2]];
   [HELP_OPTION;
    SUBCOMMAND (Some ($"all")) (Some 1%nat) [HELP ($"All"); ACTION 3]];
   [HELP_OPTION;
    SUBCOMMAND (Some ($"down")) (Some 5%nat) [HELP ($"Down")]];
   [HELP_OPTION;
    SUBCOMMAND (Some ($"bottom")) (Some 1%nat) [HELP ($"Bottom"); ACTION 4]]].
Definition ex_commands_ctx : argus := make_argus ex_commands 0 None.
Definition T_commands : list opt := default [] (head ex_commands).
Example C56_accepted : argus_init (H := libc0) 5 ex_commands 0 0 = Ok (Some ex_commands_ctx, O).
Proof. vm_compute. reflexivity. Qed.
Example C56_example :
  short_paths ($"prog") ex_commands T_commands /\
  screen (display_all_commands ex_program ex_commands_ctx) = Some (
    $"No command specified." ++ [newline; newline] ++ $"Available commands:" ++ [newline] ++
    $"  prog run                      - Run it" ++ [newline] ++ [newline] ++
    $"  prog remote add               - Add" ++ [newline] ++
    $"  prog remote remove            - Remove" ++ [newline] ++ [newline] ++
    $"Run 'prog COMMAND --help' for more information on a specific command." ++ [newline]).
Proof. split; [apply short_pathsb_ok; vm_compute; reflexivity|vm_compute; reflexivity]. Qed.
Example C56_below_example : exists body,
  lists_below default_config ex_commands ($"remote") (default [] (ex_commands !! 2%nat)) body /\
  body =
    $"  remote add                    - Add" ++ [newline] ++
    $"  remote remove                 - Remove" ++ [newline] ++
    $"  remote remove all             - All" ++ [newline].
Proof.
  eexists. split.
  - cbn [lookup list_lookup default ex_commands].
    apply below_other; [reflexivity|].
    eapply below_node; [reflexivity|reflexivity|cbn; lia|reflexivity|reflexivity| |].
    { apply below_other; [reflexivity|]. apply below_nil. }
    eapply below_node; [reflexivity|reflexivity|cbn; lia|reflexivity|reflexivity| |apply below_nil].
    apply below_other; [reflexivity|].
    eapply below_node; [reflexivity|reflexivity|cbn; lia|reflexivity|reflexivity| |apply below_nil].
    apply below_other; [reflexivity|]. apply below_nil.
  - vm_compute. reflexivity.
Qed.
(** Runnable commands further down are missing: neither `prog remote remove all` nor anything below
    `deep` appears. *)
Theorem C56_deep_refuted : exists t bottom,
  ex_commands !! 5%nat ≫= (fun T => T !! 1%nat) = Some bottom /\ runnable bottom = true /\
  screen (display_all_commands ex_program ex_commands_ctx) = Some t /\
  ~ shows ($"bottom") t /\ ~ shows ($"deep") t /\ ~ shows ($"remove all") t.
Proof.
  exists (default [] (screen (display_all_commands ex_program ex_commands_ctx))),
    (SUBCOMMAND (Some ($"bottom")) (Some 1%nat) [HELP ($"Bottom"); ACTION 4]).
  split; [reflexivity|]. split; [reflexivity|]. split; [vm_compute; reflexivity|].
  split; [|split]; apply not_shows; vm_compute; reflexivity.
Qed.
Print Assumptions C56_deep_refuted.

(** ** C57 *)

(** The codes of argus_error_type_t are 0 to 30 (errors.h 19-66). *)
Definition undescribed : list Z := [2; 20; 22; 23; 24; 25; 26; 27; 28].
Theorem C57_described_partial e e' :
  0 <= e <= 30 -> 0 <= e' <= 30 -> e ∉ undescribed -> e' ∉ undescribed ->
  argus_strerror e <> $"Unknown error" /\ (argus_strerror e = argus_strerror e' -> e = e').
Proof. exact (strerror_distinct e e'). Qed.
Print Assumptions C57_described_partial.
Example C57_example : 12 ∉ undescribed /\ argus_strerror 12 = $"Invalid argument".
Proof. split; [apply (bool_decide_eq_false_1 _); reflexivity|reflexivity]. Qed.
(** Exactly the other codes of the enumeration are described. *)
Theorem C57_which e :
  argus_strerror e <> $"Unknown error" <-> 0 <= e <= 30 /\ e ∉ undescribed.
Proof. exact (strerror_known e). Qed.
Print Assumptions C57_which.
Example C57_which_example :
  argus_strerror 11 = $"Missing help option" /\ argus_strerror 28 = $"Unknown error" /\
  argus_strerror 31 = $"Unknown error" /\ argus_strerror (-1) = $"Unknown error".
Proof. split; [|split; [|split]]; vm_compute; reflexivity. Qed.
(** Nine codes that the library returns or documents have no description. *)
Theorem C57_refuted e : e ∈ undescribed -> argus_strerror e = $"Unknown error".
Proof. exact (strerror_unknown e). Qed.
Print Assumptions C57_refuted.
(** … among them the one for an ambiguous subcommand, which argus_parse returns. *)
Theorem C57_parse_refuted : exists a',
  argus_parse (H := libc0) ex_tree_ctx [$"sta"] = Ok (Returned 20, a') /\
  argus_strerror 20 = $"Unknown error".
Proof. eexists. split; [vm_compute; reflexivity|reflexivity]. Qed.
Print Assumptions C57_parse_refuted.
