(** * Specification: a program written like the examples (C81) *)
From Verif Require Import Api SpecGrammar SpecAfter SpecCollections.

(** The user actions among some events, in order. *)
Definition actions (l : list event) : list nat :=
  omap (fun e => match e with EAction f => Some f | _ => None end) l.
(** The action that the reading [its] of a command line asks for: that of the last subcommand. *)
Definition asked_action (D : list (list decl)) (its : list item) : list nat :=
  match last (entered its) with
  | None => []
  | Some r => match D !! fst r ≫= fun T => T !! snd r with
              | Some d => match d_action d with Some f => [f] | None => [] end
              | None => []
              end
  end.
(** The program only reads the context. *)
Definition only_reads `{Libc} (look : argus -> argus) : Prop := forall a, accesses a (look a).
