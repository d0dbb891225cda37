(** * Declaration macros (includes/argus/options.h) *)
From Coq Require Import Floats.SpecFloat.
From Verif Require Export Api.

(** Arguments of DEFAULT(...): an integer, string, boolean or double expression. *)
Inductive default_arg := DInt (z : Z) | DString (s : cstr) | DBool (b : bool) | DFloat (bits : Z).

(** Conversion of a double to uintptr_t: truncation towards zero.  Values outside the range
    are undefined behaviour in C; the model then gives 0 (no theorem uses that case). *)
Definition trunc_float (bits : Z) : Z :=
  match float_of_bits bits with
  | S754_finite s m e =>
      let v := if 0 <=? e then Zpos m * 2 ^ e else Zpos m / 2 ^ (- e) in
      if s then - v else v
  | _ => 0
  end.

(** [(argus_value_t){ .raw = (uintptr_t)(val) }] (options.h 76-77) *)
Definition default_raw (d : default_arg) : uval :=
  match d with
  | DInt z => Raw W8 (z mod two64)
  | DString s => PLit s
  | DBool b => Raw W8 (if b then 1 else 0)
  | DFloat bits => Raw W8 (trunc_float bits mod two64)
  end.

(** The optional field macros (options.h 76-89) *)
Inductive modifier :=
  | DEFAULT (d : default_arg)
  | HANDLER (f : handler)
  | ACTION (id : nat)
  | FREE_HANDLER (f : free_handler_t)
  | HINT (s : cstr)
  | REQUIRE (l : list cstr)
  | CONFLICT (l : list cstr)
  | HELP (s : cstr)
  | FLAGS (n : N)
  | ENV_VAR (s : cstr)
  | VALIDATOR (l : list ventry).

(** A later designated initialiser overrides an earlier one (C11 6.7.9p19). *)
Definition apply_modifier (o : opt) (m : modifier) : opt :=
  let d := decl_of o in
  let put d' := Opt d' (value o) (is_allocated o) (value_count o) (value_capacity o) (is_set o) in
  match m with
  | DEFAULT v =>
      Opt (Decl (d_type d) (d_name d) (d_sname d) (d_lname d) (d_help d) (d_hint d) (d_vtype d)
             (default_raw v) true (d_env_name d) (d_handler d) (d_free d) (d_validators d)
             (d_conflict d) (d_require d) (d_flags d) (d_action d) (d_sub d))
          (default_raw v) (is_allocated o) (value_count o) (value_capacity o) true
  | HANDLER f =>
      put (Decl (d_type d) (d_name d) (d_sname d) (d_lname d) (d_help d) (d_hint d) (d_vtype d)
             (d_default d) (d_have_default d) (d_env_name d) (Some f) (d_free d) (d_validators d)
             (d_conflict d) (d_require d) (d_flags d) (d_action d) (d_sub d))
  | ACTION id =>
      put (Decl (d_type d) (d_name d) (d_sname d) (d_lname d) (d_help d) (d_hint d) (d_vtype d)
             (d_default d) (d_have_default d) (d_env_name d) (d_handler d) (d_free d) (d_validators d)
             (d_conflict d) (d_require d) (d_flags d) (Some id) (d_sub d))
  | FREE_HANDLER f =>
      put (Decl (d_type d) (d_name d) (d_sname d) (d_lname d) (d_help d) (d_hint d) (d_vtype d)
             (d_default d) (d_have_default d) (d_env_name d) (d_handler d) (Some f) (d_validators d)
             (d_conflict d) (d_require d) (d_flags d) (d_action d) (d_sub d))
  | HINT s =>
      put (Decl (d_type d) (d_name d) (d_sname d) (d_lname d) (d_help d) (Some s) (d_vtype d)
             (d_default d) (d_have_default d) (d_env_name d) (d_handler d) (d_free d) (d_validators d)
             (d_conflict d) (d_require d) (d_flags d) (d_action d) (d_sub d))
  | REQUIRE l =>
      put (Decl (d_type d) (d_name d) (d_sname d) (d_lname d) (d_help d) (d_hint d) (d_vtype d)
             (d_default d) (d_have_default d) (d_env_name d) (d_handler d) (d_free d) (d_validators d)
             (d_conflict d) (Some l) (d_flags d) (d_action d) (d_sub d))
  | CONFLICT l =>
      put (Decl (d_type d) (d_name d) (d_sname d) (d_lname d) (d_help d) (d_hint d) (d_vtype d)
             (d_default d) (d_have_default d) (d_env_name d) (d_handler d) (d_free d) (d_validators d)
             (Some l) (d_require d) (d_flags d) (d_action d) (d_sub d))
  | HELP s =>
      put (Decl (d_type d) (d_name d) (d_sname d) (d_lname d) (Some s) (d_hint d) (d_vtype d)
             (d_default d) (d_have_default d) (d_env_name d) (d_handler d) (d_free d) (d_validators d)
             (d_conflict d) (d_require d) (d_flags d) (d_action d) (d_sub d))
  | FLAGS n =>
      put (Decl (d_type d) (d_name d) (d_sname d) (d_lname d) (d_help d) (d_hint d) (d_vtype d)
             (d_default d) (d_have_default d) (d_env_name d) (d_handler d) (d_free d) (d_validators d)
             (d_conflict d) (d_require d) n (d_action d) (d_sub d))
  | ENV_VAR s =>
      put (Decl (d_type d) (d_name d) (d_sname d) (d_lname d) (d_help d) (d_hint d) (d_vtype d)
             (d_default d) (d_have_default d) (Some s) (d_handler d) (d_free d) (d_validators d)
             (d_conflict d) (d_require d) (d_flags d) (d_action d) (d_sub d))
  | VALIDATOR l =>
      put (Decl (d_type d) (d_name d) (d_sname d) (d_lname d) (d_help d) (d_hint d) (d_vtype d)
             (d_default d) (d_have_default d) (d_env_name d) (d_handler d) (d_free d) (Some l)
             (d_conflict d) (d_require d) (d_flags d) (d_action d) (d_sub d))
  end.

Definition NUL : ascii := Ascii.zero.

(** A zero-initialised option of the given type (fields not mentioned are zero). *)
Definition blank (ty : optype) (name : option cstr) (sname : ascii) (lname : option cstr)
    (vt : N) (free : option free_handler_t) (flags : N) (sub : option nat) : opt :=
  Opt (Decl ty name sname lname None None vt VNull false None None free None None None flags None sub)
      VNull false O O false.

Definition with_mods (o : opt) (l : list modifier) : opt := fold_left apply_modifier l o.

(** DEFINE_NAME (options.h 75): the long name, else the one-character string *)
Definition define_name (lname : option cstr) (sname : ascii) : cstr :=
  match lname with
  | Some l => l
  | None => if Ascii.eqb sname NUL then [] else [sname]
  end.

(** OPTION_BASE, POSITIONAL_BASE, GROUP_BASE, SUBCOMMAND_BASE (options.h 146-169) *)
Definition OPTION_BASE (s : ascii) (l : option cstr) (vt : N) (m : list modifier) : opt :=
  with_mods (blank TOption (Some (define_name l s)) s l vt (Some FDefault) 0 None) m.
Definition POSITIONAL_BASE (name : option cstr) (vt : N) (m : list modifier) : opt :=
  with_mods (blank TPositional name NUL None vt (Some FDefault) FLAG_REQUIRED None) m.
Definition GROUP_BASE (name : option cstr) (m : list modifier) : opt :=
  with_mods (blank TGroup name NUL None VT_NONE None 0 None) m.
Definition SUBCOMMAND (name : option cstr) (sub : option nat) (m : list modifier) : opt :=
  with_mods (blank TSubcommand name NUL None VT_NONE None 0 sub) m.

(** The typed macros (options.h 175-247) *)
Definition OPTION_FLAG s l m := OPTION_BASE s l VT_FLAG (HANDLER HFlag :: m).
Definition OPTION_BOOL s l m := OPTION_BASE s l VT_BOOL (HANDLER HBool :: m).
Definition OPTION_STRING s l m := OPTION_BASE s l VT_STRING (HANDLER HString :: m).
Definition OPTION_INT s l m := OPTION_BASE s l VT_INT (HANDLER HInt :: m).
Definition OPTION_FLOAT s l m := OPTION_BASE s l VT_FLOAT (HANDLER HFloat :: m).
Definition OPTION_ARRAY_STRING s l m :=
  OPTION_BASE s l VT_ARRAY_STRING (HANDLER HArrayString :: FREE_HANDLER FArrayString :: m).
Definition OPTION_ARRAY_INT s l m := OPTION_BASE s l VT_ARRAY_INT (HANDLER HArrayInt :: m).
Definition OPTION_ARRAY_FLOAT s l m := OPTION_BASE s l VT_ARRAY_FLOAT (HANDLER HArrayFloat :: m).
Definition OPTION_MAP_STRING s l m :=
  OPTION_BASE s l VT_MAP_STRING (HANDLER HMapString :: FREE_HANDLER FMapString :: m).
Definition OPTION_MAP_INT s l m :=
  OPTION_BASE s l VT_MAP_INT (HANDLER HMapInt :: FREE_HANDLER FMapInt :: m).
Definition OPTION_MAP_FLOAT s l m :=
  OPTION_BASE s l VT_MAP_FLOAT (HANDLER HMapFloat :: FREE_HANDLER FMapFloat :: m).
Definition OPTION_MAP_BOOL s l m :=
  OPTION_BASE s l VT_MAP_BOOL (HANDLER HMapBool :: FREE_HANDLER FMapBool :: m).
Definition HELP_OPTION :=
  OPTION_FLAG "h" (Some ($"help")) [HELP ($"Show help message"); HANDLER HHelp; FLAGS FLAG_EXIT].
Definition VERSION_OPTION :=
  OPTION_FLAG "V" (Some ($"version"))
    [HELP ($"Show version information"); HANDLER HVersion; FLAGS FLAG_EXIT].
Definition GROUP_START name m := GROUP_BASE (Some name) m.
Definition GROUP_END := GROUP_BASE None [].
Definition POSITIONAL_STRING n m := POSITIONAL_BASE (Some n) VT_STRING (HANDLER HString :: m).
Definition POSITIONAL_INT n m := POSITIONAL_BASE (Some n) VT_INT (HANDLER HInt :: m).
Definition POSITIONAL_BOOL n m := POSITIONAL_BASE (Some n) VT_BOOL (HANDLER HBool :: m).
Definition POSITIONAL_FLOAT n m := POSITIONAL_BASE (Some n) VT_FLOAT (HANDLER HFloat :: m).
Definition POSITIONAL_MANY_STRING n m :=
  POSITIONAL_BASE (Some n) VT_VARIADIC_STRING
    (HANDLER HVariadicString :: FREE_HANDLER FVariadicString :: m).
Definition POSITIONAL_MANY_INT n m :=
  POSITIONAL_BASE (Some n) VT_VARIADIC_INT (HANDLER HVariadicInt :: m).
Definition POSITIONAL_MANY_FLOAT n m :=
  POSITIONAL_BASE (Some n) VT_VARIADIC_FLOAT (HANDLER HVariadicFloat :: m).

(** Validator macros (options.h 94-137) *)
Definition V_RANGE a b := VEntry (VRange a b) ORDER_POST.
Definition V_LENGTH a b := VEntry (VLength a b) ORDER_POST.
Definition V_COUNT a b := VEntry (VCount a b) ORDER_POST.
Definition V_REGEX p hint := VEntry (VRegex p hint) ORDER_PRE.
Definition V_CHOICE_STR l := VEntry (VChoicesStr l) ORDER_POST.
Definition V_CHOICE_INT l := VEntry (VChoicesInt l) ORDER_POST.
Definition V_CHOICE_FLOAT l := VEntry (VChoicesFloat l) ORDER_POST.

(** A fresh context (argus_init.c 23-30) over the tables [tabs], root table [root];
    env_prefix is set afterwards by the program. *)
Definition fresh_heap : heap := Heap [] [].
Definition make_argus (tabs : list (list opt)) (root : nat) (prefix : option cstr) : argus :=
  Argus tabs root [] 0 fresh_heap [] prefix.
