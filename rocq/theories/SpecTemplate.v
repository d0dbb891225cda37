(** * Specification: what the usage line promises about the words after it *)
From Verif Require Export SpecTyped SpecHelp.

(** The words [ws] lead from the program to table [t], by the entries [rs]. *)
Definition leads_to (D : list (list decl)) (root : nat) (ws : list cstr) (rs : list (nat * nat)) (t : nat) : Prop :=
  (ws = [] /\ rs = [] /\ t = root) \/ exists d, names D root ws rs d t.

(** The arguments of the usage line, in order. *)
Definition arguments (T : list opt) : list opt := List.filter (entry_is TPositional) T.
(** Only the last argument may be variadic. *)
Definition orderly (T : list opt) : Prop :=
  forall i j o x, T !! i = Some o -> positional (decl_of o) -> variadic (decl_of o) ->
    T !! j = Some x -> positional (decl_of x) -> (j <= i)%nat.
(** There is an argument for each of [n] words: the last one takes the rest if it is variadic. *)
Definition enough (T : list opt) (n : nat) : Prop :=
  (n <= length (arguments T))%nat \/ exists o, last (arguments T) = Some o /\ variadic (decl_of o).
(** The argument that word [k] is meant for. *)
Definition argument_for (T : list opt) (k : nat) : option opt :=
  arguments T !! Nat.min k (length (arguments T) - 1).
