(** * C strings, character classes, integer conversion, IEEE-754 bits

    Models of the parts of the C library that Argus calls.  Everything here is
    the behaviour of glibc in the "C" locale on an LP64 platform (8-bit bytes,
    32-bit int, 64-bit long and long long). *)
From Coq Require Export Ascii String ZArith NArith.
From Coq Require Import Floats.SpecFloat.
From Coq Require Import Decimal DecimalString DecimalZ.
From stdpp Require Export base list.
Export ListNotations.
Open Scope Z_scope.
Open Scope list_scope.

(** A C string: its bytes without the terminating NUL. *)
Notation cstr := (list ascii).

Global Instance ascii_eq_dec : EqDecision ascii := ascii_dec.

(** String literals. *)
Definition lit (s : string) : cstr := list_ascii_of_string s.
Notation "$ s" := (lit s%string) (at level 1, format "$ s").

(** The value of a byte as [unsigned char]. *)
Definition code (c : ascii) : Z := Z.of_N (N_of_ascii c).

(** [strcmp]: lexicographic comparison of bytes as unsigned char; only the
    sign of the C result is used by Argus, the model returns -1, 0 or 1. *)
Fixpoint strcmp (a b : cstr) : Z :=
  match a, b with
  | [], [] => 0
  | [], _ :: _ => -1
  | _ :: _, [] => 1
  | x :: a', y :: b' =>
      if code x <? code y then -1
      else if code y <? code x then 1
      else strcmp a' b'
  end.

(** [strncmp]: as [strcmp] on at most [n] bytes. *)
Fixpoint strncmp (a b : cstr) (n : nat) {struct n} : Z :=
  match n with
  | O => 0
  | S n' =>
      match a, b with
      | [], [] => 0
      | [], _ :: _ => -1
      | _ :: _, [] => 1
      | x :: a', y :: b' =>
          if code x <? code y then -1
          else if code y <? code x then 1
          else strncmp a' b' n'
      end
  end.

(** [strchr s c] for a non-NUL [c]: position of the first occurrence. *)
Fixpoint strchr (s : cstr) (c : ascii) : option nat :=
  match s with
  | [] => None
  | x :: s' => if Ascii.eqb x c then Some O
               else match strchr s' c with Some n => Some (S n) | None => None end
  end.

(** [isdigit], [isspace] ("C" locale). *)
Definition isdigit (c : ascii) : bool := (48 <=? code c) && (code c <=? 57).
Definition isspace (c : ascii) : bool :=
  (code c =? 32) || ((9 <=? code c) && (code c <=? 13)).

(** [tolower], [toupper] ("C" locale; glibc maps bytes >= 128 to themselves). *)
Definition tolower (c : ascii) : ascii :=
  if (65 <=? code c) && (code c <=? 90) then ascii_of_N (N_of_ascii c + 32) else c.
Definition toupper (c : ascii) : ascii :=
  if (97 <=? code c) && (code c <=? 122) then ascii_of_N (N_of_ascii c - 32) else c.

(** ** strtol / strtoll, base 10 *)

Definition LONG_MAX : Z := 9223372036854775807.
Definition LONG_MIN : Z := -9223372036854775808.
Definition INT_MAX : Z := 2147483647.
Definition INT_MIN : Z := -2147483648.

Fixpoint skip_space (s : cstr) : cstr :=
  match s with
  | c :: s' => if isspace c then skip_space s' else s
  | [] => []
  end.

(** Leading digits of [s], accumulated on [acc]; returns value and rest. *)
Fixpoint take_digits (acc : Z) (s : cstr) : Z * cstr :=
  match s with
  | c :: s' => if isdigit c then take_digits (acc * 10 + (code c - 48)) s' else (acc, s)
  | [] => (acc, [])
  end.

Definition clamp_long (z : Z) : Z :=
  if z <? LONG_MIN then LONG_MIN else if LONG_MAX <? z then LONG_MAX else z.

(** [strtoll (s, &end, 10)] (and [strtol], same width on LP64): the value,
    saturated on overflow, and the unread rest of the string; when there are
    no digits the value is 0 and the rest is the whole string. *)
Definition strtoll (s : cstr) : Z * cstr :=
  let s1 := skip_space s in
  let '(neg, s2) :=
    match s1 with
    | c :: t => if Ascii.eqb c "-" then (true, t)
                else if Ascii.eqb c "+" then (false, t)
                else (false, s1)
    | [] => (false, s1)
    end in
  match s2 with
  | c :: _ =>
      if isdigit c then
        let '(v, rest) := take_digits 0 s2 in
        (clamp_long (if neg then - v else v), rest)
      else (0, s)
  | [] => (0, s)
  end.

(** Conversion of a long to int: reduction modulo 2^32 (gcc). *)
Definition two32 : Z := 4294967296.
Definition two64 : Z := 18446744073709551616.
Definition to_int32 (z : Z) : Z :=
  let m := z mod two32 in if m <? 2147483648 then m else m - two32.
Definition to_int64 (z : Z) : Z :=
  let m := z mod two64 in if m <? 9223372036854775808 then m else m - two64.

(** [printf "%d"] / PRId64. *)
Definition dec (z : Z) : cstr := list_ascii_of_string (NilZero.string_of_int (Z.to_int z)).

(** [snprintf (buf, size, "%s", s)]: what ends up in the buffer ([size] > 0). *)
Definition snprintf (size : nat) (s : cstr) : cstr := take (size - 1) s.

(** ** IEEE-754 binary64 from bits *)

Definition float_of_bits (z : Z) : spec_float :=
  let s := 0 <? z / 9223372036854775808 in
  let e := (z / 4503599627370496) mod 2048 in
  let m := z mod 4503599627370496 in
  if e =? 0 then
    match m with
    | Zpos p => S754_finite s p (-1074)
    | _ => S754_zero s
    end
  else if e =? 2047 then
    if m =? 0 then S754_infinity s else S754_nan
  else
    match m + 4503599627370496 with
    | Zpos p => S754_finite s p (e - 1075)
    | _ => S754_nan (* impossible *)
    end.

(** C comparison of doubles given by their bits. *)
Definition flt (a b : Z) : bool :=
  match SFcompare (float_of_bits a) (float_of_bits b) with Some Lt => true | _ => false end.
Definition feq (a b : Z) : bool :=
  match SFcompare (float_of_bits a) (float_of_bits b) with Some Eq => true | _ => false end.

(** The double literal 0.0000001. *)
Definition eps_bits : Z := 4502148214488346440.

(** [fabs (a - b) < 0.0000001]. *)
Definition fclose (a b : Z) : bool :=
  match SFcompare (SFabs (SFsub 53 1024 (float_of_bits a) (float_of_bits b)))
                  (float_of_bits eps_bits) with
  | Some Lt => true | _ => false
  end.

(** ** The rest of libc: parameters of the model *)

(** Outcome of compiling and running a regular expression
    (source/callbacks/validators/regex_validator.c 48-82). *)
Inductive regex_result := RxMatch | RxNoMatch | RxError | RxBadPattern.

Class Libc := {
  (** [getenv]; the environment does not change during a call. *)
  getenv : cstr -> option cstr;
  (** [strtod]: bits of the double and number of bytes read. *)
  strtod : cstr -> Z * nat;
  (** [strtof], converted to double: bits. *)
  strtof : cstr -> Z;
  (** [qsort] on the list of elements. *)
  qsort : forall A : Type, (A -> A -> Z) -> list A -> list A;
  (** Whether the library was built with ARGUS_REGEX, and the PCRE2 engine
      (pattern, subject). *)
  regex_enabled : bool;
  regex_match : cstr -> cstr -> regex_result;
  (** [printf "%f"] and [printf "%.2g"] of a double given by its bits. *)
  fmt_f : Z -> cstr;
  fmt_2g : Z -> cstr;
}.
