(** * Specification: tables built with the macros of options.h *)
From Verif Require Import Macros SpecGrammar SpecAfter SpecMemory SpecContents SpecSafe.

(** A modifier that keeps what the macro sets up: handler and free function are not replaced, a
    default has the type of the option and is not given to list options, list options do not let
    the environment override them, validators suit the option. *)
Definition proper (vt : N) (f : option handler) (m : modifier) : Prop :=
  let o := with_mods (blank TOption None NUL None vt None 0 None) (match f with Some f => [HANDLER f] | None => [] end) in
  match m with
  | DEFAULT v =>
      shape_of (decl_of o) = Plain /\
      match f with
      | Some HInt => exists z, v = DInt z
      | Some HFloat => exists b, v = DFloat b
      | Some HString => exists s, v = DString s
      | _ => True
      end
  | HANDLER _ | FREE_HANDLER _ => False
  | FLAGS n => shape_of (decl_of o) <> Plain -> N.testbit n 6 = false
  | VALIDATOR l => forall e, e ∈ l -> suits (decl_of o) e
  | _ => True
  end.
Notation propers vt f m := (Forall (proper vt f) m).
(** The entries a program can write with the macros and proper modifiers. *)
Inductive built : opt -> Prop :=
  | b_flag s l m : propers VT_FLAG (Some HFlag) m -> built (OPTION_FLAG s l m)
  | b_bool s l m : propers VT_BOOL (Some HBool) m -> built (OPTION_BOOL s l m)
  | b_string s l m : propers VT_STRING (Some HString) m -> built (OPTION_STRING s l m)
  | b_int s l m : propers VT_INT (Some HInt) m -> built (OPTION_INT s l m)
  | b_float s l m : propers VT_FLOAT (Some HFloat) m -> built (OPTION_FLOAT s l m)
  | b_array_string s l m : propers VT_ARRAY_STRING (Some HArrayString) m -> built (OPTION_ARRAY_STRING s l m)
  | b_array_int s l m : propers VT_ARRAY_INT (Some HArrayInt) m -> built (OPTION_ARRAY_INT s l m)
  | b_array_float s l m : propers VT_ARRAY_FLOAT (Some HArrayFloat) m -> built (OPTION_ARRAY_FLOAT s l m)
  | b_map_string s l m : propers VT_MAP_STRING (Some HMapString) m -> built (OPTION_MAP_STRING s l m)
  | b_map_int s l m : propers VT_MAP_INT (Some HMapInt) m -> built (OPTION_MAP_INT s l m)
  | b_map_float s l m : propers VT_MAP_FLOAT (Some HMapFloat) m -> built (OPTION_MAP_FLOAT s l m)
  | b_map_bool s l m : propers VT_MAP_BOOL (Some HMapBool) m -> built (OPTION_MAP_BOOL s l m)
  | b_help : built HELP_OPTION
  | b_version : built VERSION_OPTION
  | b_group n m : propers VT_NONE None m -> built (GROUP_START n m)
  | b_group_end : built GROUP_END
  | b_subcommand n sub m : propers VT_NONE None m -> built (SUBCOMMAND n sub m)
  | b_pos_string n m : propers VT_STRING (Some HString) m -> built (POSITIONAL_STRING n m)
  | b_pos_int n m : propers VT_INT (Some HInt) m -> built (POSITIONAL_INT n m)
  | b_pos_bool n m : propers VT_BOOL (Some HBool) m -> built (POSITIONAL_BOOL n m)
  | b_pos_float n m : propers VT_FLOAT (Some HFloat) m -> built (POSITIONAL_FLOAT n m)
  | b_many_string n m : propers VT_VARIADIC_STRING (Some HVariadicString) m -> built (POSITIONAL_MANY_STRING n m)
  | b_many_int n m : propers VT_VARIADIC_INT (Some HVariadicInt) m -> built (POSITIONAL_MANY_INT n m)
  | b_many_float n m : propers VT_VARIADIC_FLOAT (Some HVariadicFloat) m -> built (POSITIONAL_MANY_FLOAT n m).
Definition built_tables (tabs : list (list opt)) : Prop := Forall (Forall built) tabs.
