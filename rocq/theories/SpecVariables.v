(** * Specification: which options share a variable of the environment *)
From Verif Require Export Api SpecGrammar SpecAfter.

(** A small letter and the same letter as a capital (ASCII). *)
Definition capital (c d : ascii) : Prop :=
  (97 <= N_of_ascii c <= 122)%N /\ (N_of_ascii c = N_of_ascii d + 32)%N.
(** The same character, leaving aside the case of letters and the difference of '-' and '_'. *)
Definition same_letter (c d : ascii) : Prop :=
  c = d \/ capital c d \/ capital d c \/
  (c = "-"%char /\ d = "_"%char) \/ (c = "_"%char /\ d = "-"%char).
Definition alike (n m : cstr) : Prop := Forall2 same_letter n m.

(** The option takes the name of its variable from its own name [n] (FLAG_AUTO_ENV). *)
Definition derives (d : decl) (n : cstr) : Prop :=
  d_env_name d = None /\ N.testbit (d_flags d) 7 = true /\ d_name d = Some n.
(** The option names its variable itself. *)
Definition declares (d : decl) (n : cstr) : Prop := d_env_name d = Some n.
(** Whether the prefix of the program is left out for the option. *)
Definition bare (d : decl) : bool := N.testbit (d_flags d) 8.
(** The name, with the prefix if it takes one, is not cut. *)
Definition fits (prefix : option cstr) (d : decl) (n : cstr) : Prop :=
  (length (if bare d then n else prefixed prefix n) <= 127)%nat.
