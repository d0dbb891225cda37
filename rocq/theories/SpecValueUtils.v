(** * Specification: ordering and printing single values *)
From Verif Require Import ValueUtils SpecGrammar SpecAfter SpecMemory.

(** A value as a program sees it through the member its type names *)
Inductive seen := SBool (b : bool) | SInt (z : Z) | SNull | SText (s : cstr) | SFloat (bits : Z).
Inductive sees (h : heap) : N -> uval -> seen -> Prop :=
  | se_flag v b : as_bool v = Ok b -> sees h VT_FLAG v (SBool b)
  | se_bool v b : as_bool v = Ok b -> sees h VT_BOOL v (SBool b)
  | se_int v z : as_int v = Ok z -> sees h VT_INT v (SInt z)
  | se_null : sees h VT_STRING VNull SNull
  | se_text v s : is_null v = Ok false -> deref_str v h = Ok s -> sees h VT_STRING v (SText s)
  | se_float v x : as_float v = Ok x -> sees h VT_FLOAT v (SFloat x).
(** The order of the values of one type *)
Definition less (a b : seen) : Prop :=
  match a, b with
  | SBool x, SBool y => x = false /\ y = true
  | SInt x, SInt y => x < y
  | SText s, SText t => text_before s t
  | SFloat x, SFloat y => flt x y = true
  | _, _ => False
  end.
(** Values that can be compared: no null pointer, no NaN, no two numbers further apart than an
    int can say. *)
Definition comparable (a b : seen) : Prop :=
  match a, b with
  | SNull, _ | _, SNull => False
  | SFloat x, SFloat y => feq x x = true /\ feq y y = true
  | SInt x, SInt y => -2147483648 <= x - y <= 2147483647
  | _, _ => True
  end.
(** The text of a value *)
Definition written `{Libc} (a : seen) : option cstr :=
  match a with
  | SBool b => Some (if b then $"true" else $"false")
  | SInt z => Some (dec z)
  | SText s => Some ($"""" ++ s ++ $"""")
  | SFloat x => Some (fmt_f x)
  | SNull => None
  end.
(** Texts joined by commas *)
Fixpoint joined (l : list cstr) : cstr :=
  match l with
  | [] => []
  | [s] => s
  | s :: l' => s ++ $", " ++ joined l'
  end.
(** An array of choices of a type and the values in it *)
Inductive one_of : N -> choice_array -> list uval -> Prop :=
  | oo_ints l : one_of VT_INT (CInts l) (map of_int64 l)
  | oo_texts l : one_of VT_STRING (CStrings l) l
  | oo_floats l : one_of VT_FLOAT (CFloats l) (map of_float l).
