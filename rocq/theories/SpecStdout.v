(** * Specification: what a parse prints on standard output (C80) *)
From Verif Require Import Validate Api SpecGrammar SpecStructure SpecRequest SpecAfter SpecTrust SpecHelp.

(** The names [names], typed in table [t], lead to the options of a command, table [t']. *)
Inductive path (D : list (list decl)) : nat -> list cstr -> nat -> Prop :=
  | path_here t : path D t [] t
  | path_sub t T i d n t1 names t' :
      D !! t = Some T -> T !! i = Some d -> d_type d = TSubcommand -> d_name d = Some n ->
      no_dash n -> not_hidden T i n -> d_sub d = Some t1 ->
      path D t1 names t' -> path D t (n :: names) t'.

(** The word [w] is a name of an option of [T] that calls [f] and then leaves the program. *)
Definition leaving_word (T : list opt) (f : handler) (w : cstr) : Prop :=
  exists o, o ∈ T /\ let d := decl_of o in
    d_type d = TOption /\ flag_option d /\ typed d None [w] /\
    d_handler d = Some f /\ d_validators d = None /\ N.testbit (d_flags d) 5 = true.

(** The options that show a screen leave the program. *)
Definition screens_leave (D : list (list decl)) : Prop :=
  forall T d, T ∈ D -> d ∈ T -> d_handler d = Some HHelp \/ d_handler d = Some HVersion ->
    N.testbit (d_flags d) 5 = true.

(** The version: a line with name and version, a blank line and the description; parts that the
    program does not give are left out. *)
Definition version_text (p : program) : cstr :=
  p_name p ++ match p_version p with Some v => $" v" ++ v | None => [] end ++ [newline] ++
  match p_description p with Some t => [newline] ++ t ++ [newline] | None => [] end.

(** The command that is current after [its]: table [t]. *)
Definition current (D : list (list decl)) (root : nat) (its : list item) (t : nat) : Prop :=
  match last (entered its) with
  | None => t = root
  | Some r => exists T d, D !! fst r = Some T /\ T !! snd r = Some d /\ d_sub d = Some t
  end.
