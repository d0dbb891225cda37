(** * Specification: a command seen as a program of its own *)
From Verif Require Export Api SpecGrammar SpecAfter.

(** The program whose description is that of the command with table [t]. *)
Definition as_program (t : nat) (a : argus) : argus :=
  Argus (a_tabs a) t (a_stack a) (a_err a) (a_heap a) (a_log a) (a_prefix a).
(** Entry [i] of [T] is marked as given. *)
Definition marked (i : nat) (T : list opt) : list opt := alter (fun o => with_set o true) i T.
(** Where the command's own program ends in [b], the program whose table is [r], with contents [T],
    ends in this: command [i] of its table is marked and stands first on the stack of commands, and all else is
    the same. *)
Definition as_command (r i : nat) (T : list opt) (b : argus) : argus :=
  Argus (<[r := marked i T]> (a_tabs b)) r ((r, i) :: a_stack b) (a_err b) (a_heap b) (a_log b) (a_prefix b).

(** The table [T] of the program asks for nothing itself: nothing in it is set, no variable of its options is set in
    the environment, no positional is required, and command [i] has no rules of its own. *)
Record idle `{Libc} (a : argus) (T : list opt) (i : nat) : Prop := Idle {
  id_unset : forall o, o ∈ T -> is_set o = false /\ is_allocated o = false;
  id_environment : forall o n, o ∈ T -> env_variable (a_prefix a) (decl_of o) = Some n -> getenv n = None;
  id_required : forall o, o ∈ T -> d_type (decl_of o) = TPositional -> N.testbit (d_flags (decl_of o)) 0 = false;
  id_rules : forall o, T !! i = Some o -> default [] (d_require (decl_of o)) = [] /\
    default [] (d_conflict (decl_of o)) = [] /\ default [] (d_validators (decl_of o)) = [];
}.
