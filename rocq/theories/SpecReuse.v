(** * Specification: a context after argus_free; a context with another allocator *)
From Verif Require Import State SpecGrammar SpecAfter.

(** What was allocated is gone; everything else about the entry is as it was. *)
Definition freed (o : opt) : opt :=
  if is_allocated o then Opt (decl_of o) VNull false (value_count o) (value_capacity o) (is_set o) else o.

(** The same context, when other allocations are going to fail: [orc] says of each of the next
    allocations whether it fails. *)
Definition with_oracle (a : argus) (orc : list bool) : argus := set_heap a (Heap (blocks (a_heap a)) orc).
(** The entry takes a single value, and has none that was allocated. *)
Definition single_handler (f : handler) : Prop :=
  match f with
  | HFlag | HBool | HString | HInt | HFloat | HHelp | HVersion | HCustom _ => True
  | _ => False
  end.
Definition single_entry (o : opt) : Prop :=
  is_allocated o = false /\ forall f, d_handler (decl_of o) = Some f -> single_handler f.
Definition all_single (a : argus) : Prop := forall t i o, entry a t i o -> single_entry o.
