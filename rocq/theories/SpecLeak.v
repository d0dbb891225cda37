(** * Specification: where a parse ends *)
From Verif Require Import Api SpecGrammar SpecAfter SpecMemory SpecContents SpecSafe SpecCollections SpecRefused.

Section ending.
Context `{Libc}.

(** [ending a argv its x]: the parse of [argv] carries out the items [its] without error and
    ends at the item [x] of the command line or of the environment, which gives an error or asks
    to leave; or, with [None], it carries out all of them. *)
Inductive ending (a : argus) (argv : list cstr) : list item -> option item -> Prop :=
  | end_line its x its2 a1 c a2 : reads (decls a) (a_root a) 0 false argv (its ++ x :: its2) ->
      perform a its = Ok (0, a1) -> perform a1 [x] = Ok (c, a2) -> c <> 0 -> ending a argv its (Some x)
  | end_environment its0 a0 its x its2 a1 c a2 : reads (decls a) (a_root a) 0 false argv its0 ->
      perform a its0 = Ok (0, a0) -> env_items a0 = its ++ x :: its2 ->
      perform a0 its = Ok (0, a1) -> perform a1 [x] = Ok (c, a2) -> c <> 0 -> ending a argv (its0 ++ its) (Some x)
  | end_all its a1 : assigned a argv its -> perform a its = Ok (0, a1) -> ending a argv its None.

(** The item at which the parse ends is not a list that was begun: it is for an option of a
    single value, or refused by a validator of the text, or for an array that has values already. *)
Definition not_begun (a : argus) (its : list item) (x : option item) : Prop :=
  forall t i v T d, x = Some (Call t i v) -> decls a !! t = Some T -> T !! i = Some d ->
    shape_of d = Plain \/ ~ passes d v \/ (exists k, shape_of d = Listed k) /\ exists w, Call t i w ∈ its.
End ending.
(** The declaration and kind of entry [i] of table [t]. *)
Definition entry_shape (a : argus) (t i : nat) : option (decl * shape) :=
  match a_tabs a !! t ≫= fun T => T !! i with
  | Some o => Some (decl_of o, shape_of (decl_of o))
  | None => None
  end.
