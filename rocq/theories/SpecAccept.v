(** * Specification: when a command line is accepted *)
From Verif Require Import Api SpecGrammar SpecAfter SpecRefused.

Section accept.
Context `{Libc}.

(** An item of the command line or of the environment that is carried out and lets the parse go on:
    a value that its option takes, for an option that does not ask to leave (bit 5), or a
    subcommand. *)
Definition item_taken (D : list (list decl)) (x : item) : Prop :=
  match x with
  | Call t i v => exists T d, D !! t = Some T /\ T !! i = Some d /\ value_taken d v /\ N.testbit (d_flags d) 5 = false
  | Enter _ _ => True
  | Reject _ _ => False
  end.
(** Every entry of every table in play is in order. *)
Definition all_in_order (a : argus) : Prop :=
  forall t, t ∈ tables_in_play a -> exists T, a_tabs a !! t = Some T /\ table_in_order (a_heap a) T.

(** [verdict pcre D x c]: what the parse comes to at an item that is not taken: the code of the
    refusal, or 1 for leaving. *)
Inductive verdict (pcre : cstr -> cstr) (D : list (list decl)) : item -> Z -> Prop :=
  | vd_rejected c m : verdict pcre D (Reject c m) c
  | vd_leaves t i v T d : D !! t = Some T -> T !! i = Some d -> value_taken d v -> N.testbit (d_flags d) 5 = true ->
      verdict pcre D (Call t i v) 1
  | vd_refused t i v T d c tx : D !! t = Some T -> T !! i = Some d -> value_said pcre d v c tx ->
      verdict pcre D (Call t i v) c.
End accept.
