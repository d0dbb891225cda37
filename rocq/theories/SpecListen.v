(** * Which variables of the environment a parse may read *)
From Verif Require Import Validate SpecGrammar SpecAfter SpecEnvironment.

(** Two C libraries that differ in nothing but the environment. *)
Definition same_but_environment (L L' : Libc) : Prop := unset L = unset L'.

(** Table [t] is used by a line that asks for [its]: the one of the program, or that of a
    subcommand that the line names. *)
Definition used (a : argus) (its : list item) (t : nat) : Prop :=
  t = a_root a \/ exists r, r ∈ entered its /\ subtable (decls a) r = Some t.

(** The variable [n] may be read: it belongs to an option or positional of a table in use that
    either lets its variable override, or is neither given on the line nor set from the start. *)
Definition listens (a : argus) (its : list item) (n : cstr) : Prop :=
  exists t i o, used a its t /\ entry a t i o /\
    (d_type (decl_of o) = TOption \/ d_type (decl_of o) = TPositional) /\
    (flag 6 o \/ (is_set o = false /\ forall x, x ∈ its -> ~ touches t i x)) /\
    env_variable (a_prefix a) (decl_of o) = Some n.
