(** * Specification: options that hold the last value given *)
From Verif Require Import State SpecGrammar SpecAfter Api SpecValues.

(** The entry [i] of table [t] holds one value: a flag, a boolean, a string or a number. *)
Definition plain_entry (D : list (list decl)) (t i : nat) : Prop :=
  exists T d f, D !! t = Some T /\ T !! i = Some d /\ d_handler d = Some f /\ scalar f.
