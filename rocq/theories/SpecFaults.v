(** * Specification: what can be wrong with a description, and how it is said *)
From Verif Require Import Validate Api Display SpecGrammar SpecAfter SpecStructure SpecMessages SpecRefused.

Section faults.
Context `{Libc} (pcre : cstr -> cstr) (prog : cstr) (line_of : nat -> nat -> Z).

(** ** Where an entry stands *)

(** Kinds of positional arguments *)
Definition is_optional (d : decl) : Prop := positional d /\ ~ required d.
Definition is_many (d : decl) : Prop := positional d /\ required d /\ variadic d.
Definition is_single (d : decl) : Prop := positional d /\ required d /\ ~ variadic d.
Definition is_sub (d : decl) : Prop := d_type d = TSubcommand.
(** An entry before position [i] / up to position [i] *)
Definition before (T : list decl) (i : nat) (P : decl -> Prop) : Prop :=
  exists j e, (j < i)%nat /\ T !! j = Some e /\ P e.
Definition up_to (T : list decl) (i : nat) (P : decl -> Prop) : Prop :=
  exists j e, (j <= i)%nat /\ T !! j = Some e /\ P e.

Inductive misplaced (T : list decl) (i : nat) : cstr -> Prop :=
  | mp_second d : T !! i = Some d -> is_many d -> before T i is_many ->
      misplaced T i ($"Only one POSITIONAL_MANY argument is allowed")
  | mp_after d : T !! i = Some d -> is_single d -> before T i is_many ->
      misplaced T i ($"POSITIONAL argument must be placed before POSITIONAL_MANY argument")
  | mp_optional : is_Some (T !! i) -> up_to T i is_optional -> up_to T i is_many ->
      misplaced T i ($"Cannot mix optional positional and POSITIONAL_MANY arguments")
  | mp_option d : T !! i = Some d -> d_type d = TOption -> before T i is_sub ->
      misplaced T i ($"Options should be placed at the top level, before any subcommands")
  | mp_mixed : is_Some (T !! i) -> up_to T i is_sub -> up_to T i is_single ->
      misplaced T i ($"Cannot mix subcommands and positional arguments at the same level")
  | mp_required d : T !! i = Some d -> positional d -> required d -> before T i is_optional ->
      misplaced T i ($"Required positional must be before all optional positional arguments")
  | mp_help : i = O -> (forall d, d ∈ T -> d_type d = TOption -> d_name d <> Some ($"help")) ->
      misplaced T i ($"Help option is missing").

(** ** Names; [t] is the number of the table *)
Inductive misnamed (t : nat) (T : list decl) (i : nat) (d : decl) : cstr -> Prop :=
  | mn_name : d_type d <> TGroup -> d_name d = None \/ d_name d = Some [] ->
      misnamed t T i d ($"Option name cannot be empty")
  | mn_space : d_sname d = " "%char -> misnamed t T i d ($"Short name cannot be a space character")
  | mn_hyphen : d_sname d = "-"%char -> misnamed t T i d ($"Short name cannot be a hyphen")
  | mn_used : d_sname d <> Ascii.zero -> before T i (fun e => d_sname e = d_sname d) ->
      misnamed t T i d (in_quotes $"Short name " [d_sname d] ++ $" is already used")
  | mn_start l : d_lname d = Some ("-"%char :: l) -> misnamed t T i d ($"Long name cannot start with a hyphen")
  | mn_spaces l : d_lname d = Some l -> " "%char ∈ l -> misnamed t T i d ($"Long name cannot contain spaces")
  | mn_dots l : d_lname d = Some l -> "."%char ∈ l -> misnamed t T i d ($"Long name cannot contain dots")
  | mn_empty : d_lname d = Some [] -> misnamed t T i d ($"Long name cannot be empty")
  | mn_conflict l j e : d_lname d = Some l -> (i < j)%nat -> T !! j = Some e -> d_name e = Some l ->
      misnamed t T i d ($"Name conflict with option line: " ++ dec (line_of t j))
  | mn_long l j e : d_lname d = Some l -> (i < j)%nat -> T !! j = Some e -> d_lname e = Some l ->
      misnamed t T i d ($"Long name conflict with option line: " ++ dec (line_of t j)).

(** ** Entries *)

(** The default is refused by a validator with text [w]. *)
Inductive default_refused (o : opt) (h : heap) : cstr -> Prop :=
  | dr_value e w : e ∈ validators (decl_of o) -> v_order e = ORDER_POST -> refusal o h (v_fun e) w ->
      default_refused o h w
  | dr_text e v c w : e ∈ validators (decl_of o) -> v_order e = ORDER_PRE -> d_vtype (decl_of o) = 2%N ->
      read_str h (d_default (decl_of o)) = Ok v -> text_refusal pcre (v_fun e) v c w ->
      default_refused o h w.
Inductive bad_default (o : opt) (h : heap) : cstr -> Prop :=
  | bd_flag : d_have_default (decl_of o) = true -> d_vtype (decl_of o) = 16%N ->
      bad_default o h ($"Option type flag cannot have a default value")
  | bd_refused w : d_have_default (decl_of o) = true -> d_vtype (decl_of o) <> 16%N -> default_refused o h w ->
      bad_default o h ($"Default value does not pass validations: " ++ line_end ++ ["009"%char] ++ $"    " ++ told_line prog w).
Definition requires (d : decl) (n : cstr) : Prop := n ∈ default [] (d_require d).
Definition conflicts (d : decl) (n : cstr) : Prop := n ∈ default [] (d_conflict d).
Definition unknown (T : list decl) (n : cstr) : Prop := forall e, e ∈ T -> d_name e <> Some n.

Inductive malformed (T : list decl) (o : opt) (h : heap) : optype -> cstr -> Prop :=
  (* options *)
  | mf_callable : d_sname (decl_of o) = Ascii.zero -> d_lname (decl_of o) = None ->
      malformed T o h TOption ($"Option must have a short name or a long name")
  | mf_flags bits : (d_vtype (decl_of o), bits) ∈
        [(15, [0; 1; 2; 3; 4; 5]); (224, [3; 4; 9; 10]); (3840, [3; 4; 11; 12; 13])]%N ->
      ~ flags_among (decl_of o) bits ->
      malformed T o h TOption ($"Option has invalid flags for its value type")
  | mf_help : d_help (decl_of o) = None -> malformed T o h TOption ($"Option must have a help message")
  | mf_handler : d_handler (decl_of o) = None -> malformed T o h TOption ($"Option must have a handler")
  | mf_default w : bad_default o h w -> malformed T o h TOption w
  | mf_both n : requires (decl_of o) n -> conflicts (decl_of o) n ->
      malformed T o h TOption (in_quotes $"Option cannot require and conflict with the same option: " n)
  | mf_require n : requires (decl_of o) n -> unknown T n ->
      malformed T o h TOption (in_quotes $"Required option not found " n ++ $" in options")
  | mf_conflict n : conflicts (decl_of o) n -> unknown T n ->
      malformed T o h TOption (in_quotes $"Conflicting option not found " n ++ $" in options")
  (* positional arguments *)
  | mf_p_name : d_name (decl_of o) = None -> malformed T o h TPositional ($"Positional must have a name")
  | mf_p_help : d_help (decl_of o) = None -> malformed T o h TPositional ($"Positional must have a help message")
  | mf_p_many : variadic (decl_of o) -> ~ flags_among (decl_of o) [0; 3; 4; 9; 10]%N ->
      malformed T o h TPositional ($"Invalid flags for POSITIONAL_MANY argument")
  | mf_p_flags : ~ flags_among (decl_of o) [0]%N -> malformed T o h TPositional ($"Invalid flags for positional")
  | mf_p_handler : d_handler (decl_of o) = None -> malformed T o h TPositional ($"Positional must have a handler")
  | mf_p_required : required (decl_of o) -> d_have_default (decl_of o) = true ->
      malformed T o h TPositional ($"Positional cannot be required and have a default value")
  | mf_p_default w : bad_default o h w -> malformed T o h TPositional w
  | mf_p_alone : d_require (decl_of o) <> None \/ d_conflict (decl_of o) <> None ->
      malformed T o h TPositional ($"Positional cannot have dependencies")
  (* groups *)
  | mf_g_flags : ~ flags_among (decl_of o) [14]%N -> malformed T o h TGroup ($"Group have Invalid flags")
  (* subcommands *)
  | mf_s_name : d_name (decl_of o) = None -> malformed T o h TSubcommand ($"Subcommand must have a name")
  | mf_s_help : d_help (decl_of o) = None -> malformed T o h TSubcommand ($"Subcommand must have a help message")
  | mf_s_options : d_sub (decl_of o) = None -> malformed T o h TSubcommand ($"Subcommand must have options")
  | mf_s_flags : ~ flags_among (decl_of o) [1; 2; 3; 4]%N -> malformed T o h TSubcommand ($"Invalid flags for subcommand")
  | mf_s_handler : d_handler (decl_of o) <> None -> malformed T o h TSubcommand ($"Subcommand cannot have a handler")
  | mf_s_alone : d_require (decl_of o) <> None \/ d_conflict (decl_of o) <> None ->
      malformed T o h TSubcommand ($"Subcommand cannot have dependencies")
  | mf_s_default : d_have_default (decl_of o) = true ->
      malformed T o h TSubcommand ($"Subcommand cannot have a default value")
  | mf_s_validators : d_validators (decl_of o) <> None ->
      malformed T o h TSubcommand ($"Subcommand cannot have validators").

(** ** The whole description: [fault a t i w]: entry [i] of table [t] has the fault that is
    called [w].  (The table may be empty; the missing help option is then put down to the entry
    that ends it.) *)
Inductive fault (a : argus) (t i : nat) : cstr -> Prop :=
  | ft_place T w : reachable (decls a) (a_root a) t -> decls a !! t = Some T -> misplaced T i w -> fault a t i w
  | ft_name T d w : reachable (decls a) (a_root a) t -> decls a !! t = Some T -> T !! i = Some d ->
      misnamed t T i d w -> fault a t i w
  | ft_entry T o w : reachable (decls a) (a_root a) t -> a_tabs a !! t = Some T -> T !! i = Some o ->
      malformed (map decl_of T) o (a_heap a) (d_type (decl_of o)) w -> fault a t i w
  (* a way down from the root with more than 8 subcommands leads to this one *)
  | ft_depth stk : chain (decls a) (a_root a) (stk ++ [(t, i)]) -> (8 <= length stk)%nat ->
      fault a t i ($"Subcommand depth exceeds maximum allowed (8)").

(** How an entry is called in the heading of a message *)
Definition called_by (d : decl) : cstr :=
  match d_lname d with Some l => $"--" ++ l | None => [] end ++
  match decide (d_sname d = Ascii.zero) with left _ => [] | right _ => $" -" ++ [d_sname d] end.
Inductive heading : option decl -> cstr -> Prop :=
  | hd_end : heading None ($"Unknown [ unnamed ]:")
  | hd_option d n : d_type d = TOption -> d_name d = Some n -> heading (Some d) ($"Option [ " ++ called_by d ++ $" ]:")
  | hd_positional d n : d_type d = TPositional -> d_name d = Some n -> heading (Some d) ($"Positional [ " ++ n ++ $" ]:")
  | hd_sub d n : d_type d = TSubcommand -> d_name d = Some n -> heading (Some d) ($"Subcommand [ " ++ n ++ $" ]:")
  | hd_group d n : d_type d = TGroup -> d_name d = Some n -> heading (Some d) ($"Group [ " ++ n ++ $" ]:")
  | hd_unnamed d k : d_name d = None ->
      (d_type d, k) ∈ [(TOption, $"Option"); (TPositional, $"Positional"); (TSubcommand, $"Subcommand"); (TGroup, $"Group")] ->
      heading (Some d) (k ++ $" [ unnamed ]:").
(** The lines of one message: place in the source, heading; then the text, indented *)
Definition complaint (f : cstr) (l : Z) (d : option decl) (w t : cstr) : Prop :=
  exists hd, heading d hd /\ t = f ++ $":" ++ dec l ++ $" -> " ++ hd ++ line_end ++ ["009"%char] ++ w ++ line_end.
(** [told_of a l out]: [out] consists of the complaints about the faults [l] (table, entry,
    text), one after the other. *)
Inductive told_of (file_of : nat -> nat -> option cstr) (a : argus) : list (nat * nat * cstr) -> cstr -> Prop :=
  | to_nil : told_of file_of a [] []
  | to_cons t i w l T f x y : decls a !! t = Some T -> file_of t i = Some f ->
      complaint f (line_of t i) (T !! i) w x -> told_of file_of a l y ->
      told_of file_of a ((t, i, w) :: l) (x ++ y).
End faults.
