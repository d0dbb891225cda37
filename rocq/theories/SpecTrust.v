(** * Specification: what the help shows can be typed (C78) *)
From Verif Require Import Validate Api SpecGrammar SpecAfter SpecStructure SpecRequest SpecValues SpecCollections SpecHelp.

(** [t] stands somewhere in [u]. *)
Definition appears (t u : cstr) : Prop := exists x y, u = x ++ t ++ y.

(** The words that give option [d] the text [v] (nothing for a flag) by one of its names. *)
Inductive typed (d : decl) : option cstr -> list cstr -> Prop :=
  | ty_long n : d_lname d = Some n -> typeable n -> typed d None [$"--" ++ n]
  | ty_long_equal n v : d_lname d = Some n -> typeable n -> typed d (Some v) [$"--" ++ n ++ "="%char :: v]
  | ty_long_separate n v : d_lname d = Some n -> typeable n -> typed d (Some v) [$"--" ++ n; v]
  | ty_letter : plain_letter (d_sname d) -> typed d None [["-"%char; d_sname d]]
  | ty_letter_separate v : plain_letter (d_sname d) -> typed d (Some v) [["-"%char; d_sname d]; v].

(** The text that stands for the default in the help; that of a string stands between quotes. *)
Definition default_shown `{Libc, Printf} (d : decl) (w : cstr) : Prop :=
  if N.eqb (d_vtype d) VT_STRING
  then default_value d = [ascii_of_nat 34] ++ w ++ [ascii_of_nat 34]
  else default_value d = w.
(** The library's handlers of the types whose defaults can be typed. *)
Definition simple_type (d : decl) : Prop :=
  (d_vtype d = VT_INT /\ d_handler d = Some HInt) \/ (d_vtype d = VT_BOOL /\ d_handler d = Some HBool) \/
  (d_vtype d = VT_STRING /\ d_handler d = Some HString).
(** Two values are the same to a program that reads them as the type says. *)
Definition same_to_program (d : decl) (x y : uval) : Prop :=
  (d_vtype d = VT_INT -> as_int x = as_int y) /\ (d_vtype d = VT_BOOL -> as_bool x = as_bool y) /\
  (d_vtype d = VT_STRING -> x = y).

(** [offered f g w]: the text [w] is one that validator [f] names as allowed, for an option of
    handler [g]: one of the choices, or a number between the limits of a range (integers of 32 bits). *)
Inductive offered : vfun -> handler -> cstr -> Prop :=
  | of_choice_int l z : z ∈ l -> in_32_bits z -> offered (VChoicesInt l) HInt (dec z)
  | of_choice_str l s : s ∈ l -> offered (VChoicesStr l) HString s
  | of_range lo hi n : lo <= n <= hi -> in_32_bits n -> offered (VRange lo hi) HInt (dec n).
