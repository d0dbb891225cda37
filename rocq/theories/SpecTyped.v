(** * Specification: the words by which a command is called *)
From Verif Require Export SpecGrammar SpecAfter SpecCommands.

(** Entry [i] of the table is a command that the word [w] selects by its full name: the name is not
    taken for an option, and no command declared before it has a name that begins with [w]. *)
Definition callable (T : list decl) (w : cstr) (i : nat) (d : decl) : Prop :=
  T !! i = Some d /\ d_type d = TSubcommand /\ d_name d = Some w /\ (forall s, w <> "-"%char :: s) /\
  forall j e r, (j < i)%nat -> T !! j = Some e -> d_type e = TSubcommand -> d_name e <> Some (w ++ r).

(** From table [t], the words name the entries of the path, ending with command [d], whose own table
    is the last number. *)
Inductive names (D : list (list decl)) : nat -> list cstr -> list (nat * nat) -> decl -> nat -> Prop :=
  | names_one t T w i d t' :
      D !! t = Some T -> callable T w i d -> d_sub d = Some t' -> names D t [w] [(t, i)] d t'
  | names_more t T w i d t' ws rs d' t'' :
      D !! t = Some T -> callable T w i d -> d_sub d = Some t' -> names D t' ws rs d' t'' ->
      names D t (w :: ws) ((t, i) :: rs) d' t''.

(** The words with the program name in front, separated by spaces. *)
Definition typed (prog : cstr) (ws : list cstr) : cstr := fold_left path_under ws prog.
