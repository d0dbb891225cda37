(** * The whole part of a double (for C26)
    Written from IEEE 754 binary64: 52 bits of fraction, 11 bits of exponent, subnormal numbers below;
    only numbers without the sign bit. *)
From Coq Require Import ZArith.
Open Scope Z_scope.

Definition expo (bits : Z) : Z := bits / 2 ^ 52.
Definition frac (bits : Z) : Z := bits mod 2 ^ 52.

(** The number times 2^1074, which is whole. *)
Definition scaled (bits : Z) : Z :=
  if expo bits =? 0 then frac bits else (2 ^ 52 + frac bits) * 2 ^ (expo bits - 1).

(** Zero or positive, and not infinite or NaN. *)
Definition finite_positive (bits : Z) : Prop := 0 <= bits /\ expo bits < 2047.

(** [n] is the number without its fraction. *)
Definition whole_part (bits n : Z) : Prop :=
  n * 2 ^ 1074 <= scaled bits < (n + 1) * 2 ^ 1074.
