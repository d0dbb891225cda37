(** * Specification: what a program may rely on when it reads an option *)
From Verif Require Export Api SpecGrammar SpecAfter.

(** The program reads option [p] as a value on which [P] holds; reading leaves the context alone. *)
Definition read_as (a : argus) (p : option cstr) (P : uval -> Prop) : Prop :=
  exists x, argus_get a p = Ok (x, set_err a 0) /\ P x.
(** Entry [i] of table [t] was declared with validator [e]. *)
Definition declared_with (a : argus) (t i : nat) (e : ventry) : Prop :=
  exists T d, decls a !! t = Some T /\ T !! i = Some d /\ d_type d <> TGroup /\ e ∈ default [] (d_validators d).
