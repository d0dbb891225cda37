(** * Specification: the text of a list of values (C76) *)
From Verif Require Import Api SpecGrammar SpecAfter SpecValues SpecMemory SpecContents.

(** The texts, with commas between them. *)
Fixpoint joined (ws : list cstr) : cstr :=
  match ws with
  | [] => []
  | [w] => w
  | w :: ws' => w ++ ","%char :: joined ws'
  end.
Definition comma_free (w : cstr) : Prop := ","%char ∉ w.
Definition plain_element (w : cstr) : Prop := w <> [] /\ comma_free w.
(** The text of a pair, and the pairs whose text is read as that pair. *)
Definition pair_written (p : cstr * cstr) : cstr := fst p ++ "="%char :: snd p.
Definition plain_pair (p : cstr * cstr) : Prop := comma_free (fst p) /\ "="%char ∉ fst p /\ comma_free (snd p).
