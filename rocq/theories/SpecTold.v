(** * Specification: what a parse tells the user *)
From Verif Require Export Api SpecGrammar SpecAfter.

(** The codes of the error messages among some events. *)
Definition messages (l : list event) : list Z :=
  omap (fun e => match e with EDiag c _ => Some c | _ => None end) l.
(** Handler and validators of the entry are those of the library. *)
Definition library_entry (d : decl) : Prop :=
  (forall f, d_handler d <> Some (HCustom f)) /\
  forall e, e ∈ validators d -> match v_fun e with VCustomPre _ | VCustomPost _ => False | _ => True end.
Definition library_only (D : list (list decl)) : Prop :=
  forall t T d, D !! t = Some T -> d ∈ T -> library_entry d.
(** No message when the outcome is success (0) or a request to exit (1), exactly one, with the
    code that is returned, when it is any other but the lack of memory (26). *)
Definition explained (st : Z) (l : list event) : Prop :=
  (st = 0 \/ st = 1 -> messages l = []) /\
  (st <> 0 -> st <> 1 -> st <> 26 -> messages l = [st]).
