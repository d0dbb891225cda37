(** * Specification: what each word of a command line is used for *)
From Verif Require Import Parse SpecGrammar.

(** A use of a word: it names entry [i] of table [t], or it is a text given to an option. *)
Inductive use :=
  | Name (t i : nat)
  | Text (v : cstr).
(** The uses an item offers, in order. *)
Definition uses_of (it : item) : list use :=
  match it with
  | Call t i v => Name t i :: match v with Some v => [Text v] | None => [] end
  | Enter t i => [Name t i]
  | Reject _ _ => []
  end.
(** [w] can be used so: a text is the word itself; a name is a subcommand, possibly shortened, a
    dash with the letter of an option, or two dashes with its name (of which 63 characters count). *)
Definition used_as (D : list (list decl)) (w : cstr) (u : use) : Prop :=
  match u with
  | Text v => w = v
  | Name t i => exists T d, D !! t = Some T /\ T !! i = Some d /\
      (sub_match w d \/
       (exists c s, w = "-"%char :: c :: s /\ short_named c d) \/
       (exists n s, w = $"--" ++ n ++ s /\ (s = [] \/ exists v, s = "="%char :: v) /\ long_named (key63 n) d))
  end.
(** The words that are neither one dash nor two. *)
Definition telling (argv : list cstr) : list cstr :=
  List.filter (fun w => negb (bool_decide (w = $"-" \/ w = $"--"))) argv.
