(** * Specification: descriptions that can be checked *)
From Verif Require Export Validate Api SpecGrammar SpecAfter SpecStructure SpecSafe Macros SpecMacros.

(** The entry [e] of the validators of [o] has nothing against the default of [o]; validators of
    texts are asked only for string options (value type 2). *)
Definition content `{Libc} (o : opt) (h : heap) (e : ventry) : Prop :=
  match v_order e with
  | ORDER_POST => accepts_option (v_fun e) o h
  | ORDER_PRE => d_vtype (decl_of o) = 2%N ->
      exists v, read_str h (d_default (decl_of o)) = Ok v /\ accepts_text (v_fun e) v
  end.
(** A validator of the library, which says why it refuses a value. *)
Definition explains (e : ventry) : Prop :=
  match v_fun e with VCustomPre _ | VCustomPost _ => False | _ => True end.
(** Once a validator refuses the default all further ones refuse it, and each says why. *)
Definition loud `{Libc} (h : heap) (o : opt) : Prop :=
  d_have_default (decl_of o) = true ->
  forall i j e e', (i <= j)%nat -> validators (decl_of o) !! i = Some e -> validators (decl_of o) !! j = Some e' ->
    ~ content o h e -> ~ content o h e' /\ explains e'.
(** Tables that subcommands lead to exist, and no way leads down from a table to itself. *)
Definition hierarchy (tabs : list (list opt)) (root : nat) : Prop :=
  let D := map (map decl_of) tabs in
  is_Some (D !! root) /\ (forall t t', below D t t' -> is_Some (D !! t')) /\ acyclic D root.
