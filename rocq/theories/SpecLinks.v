(** * Specification: numbers that UNIQUE takes for the same *)
From stdpp Require Import relations.
From Verif Require Import State SpecMemory.

(** The two differ by less than 0.0000001. *)
Definition near (x y : elem) : Prop := fclose (bits_of x) (bits_of y) = true.
(** From [x] to [y] by steps between numbers of [given], each near the next. *)
Definition linked (given : list elem) : elem -> elem -> Prop :=
  rtc (fun x y => x ∈ given /\ y ∈ given /\ near x y).
