(** * Specification: what a text means to a scalar option *)
From Verif Require Import Api SpecGrammar SpecAfter.
From Coq Require Import Decimal DecimalString DecimalZ.

(** ** Boolean words (docs/docs/fundamentals/basic-options.md 148-149; the forms 0x1, 0b1, 0x0,
    0b0 are accepted as well, bool_handler.c 23-26) *)
Definition words (b : bool) : list cstr :=
  if b then [$"true"; $"yes"; $"1"; $"on"; $"y"; $"0x1"; $"0b1"]
  else [$"false"; $"no"; $"0"; $"off"; $"n"; $"0x0"; $"0b0"].
(** The same word in another letter case. *)
Definition capitals : cstr := $"ABCDEFGHIJKLMNOPQRSTUVWXYZ".
Definition small : cstr := $"abcdefghijklmnopqrstuvwxyz".
Definition same_letter (x y : ascii) : Prop :=
  x = y \/ exists i, (capitals !! i = Some x /\ small !! i = Some y) \/
                     (small !! i = Some x /\ capitals !! i = Some y).
Definition bool_word (s : cstr) (b : bool) : Prop :=
  exists w, w ∈ words b /\ Forall2 same_letter s w.

(** ** Integer texts *)

(** The usual decimal text of an integer (printer of the standard library). *)
Definition decimal_text (n : Z) : cstr :=
  list_ascii_of_string (NilZero.string_of_int (Z.to_int n)).
(** The value of a sequence of digits. *)
Definition digit_chars : cstr := $"0123456789".
Fixpoint digits_value (acc : Z) (ds : list nat) : Z :=
  match ds with [] => acc | d :: ds' => digits_value (acc * 10 + Z.of_nat d) ds' end.
Definition written (s : cstr) (ds : list nat) : Prop :=
  Forall2 (fun c d => digit_chars !! d = Some c) s ds.
(** The nearest value that fits in 64 bits. *)
Definition saturated (z : Z) : Z := Z.max (- 2 ^ 63) (Z.min (2 ^ 63 - 1) z).

(** ** What a scalar option holds after the text [v] *)
Inductive denoted `{Libc} : handler -> option cstr -> uval -> Prop :=
  | dn_flag v : denoted HFlag v (of_bool true)
  | dn_bool s b : bool_word s b -> denoted HBool (Some s) (of_bool b)
  | dn_string s : denoted HString (Some s) (PLit s)
  | dn_nothing : denoted HString None VNull
  | dn_int s : denoted HInt (Some s) (of_int64 (fst (strtoll s)))
  | dn_float s : denoted HFloat (Some s) (of_float (strtof s)).
(** Handlers of scalar options. *)
Definition scalar (f : handler) : Prop :=
  f = HFlag \/ f = HBool \/ f = HString \/ f = HInt \/ f = HFloat.
