(** * Specification: parsing when memory may run out *)
From Verif Require Import Api SpecGrammar SpecAfter SpecReuse.

(** [orc] says of each coming allocation whether it fails; [orc'] is what remains of it after some
    allocations, none of which failed. *)
Definition none_failed (orc orc' : list bool) : Prop :=
  exists used, orc = used ++ orc' /\ forall x, x ∈ used -> x = false.
(** None of the entries that receive a text, from the command line or the environment, asks for the
    values of a map to be made unique (FLAG_UNIQUE_VALUE, types.h 99). *)
Definition no_unique_values `{Libc} (a : argus) (argv : list cstr) : Prop :=
  forall its t i v T d, reads (decls a) (a_root a) 0 false argv its \/ assigned a argv its ->
    Call t i v ∈ its -> decls a !! t = Some T -> T !! i = Some d -> N.testbit (d_flags d) 13 = false.
