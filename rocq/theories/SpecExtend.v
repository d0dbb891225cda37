(** * Specification: a context with one more entry *)
From Verif Require Export Api SpecGrammar SpecAfter.

(** Entry [x] is added at the end of table [t]. *)
Definition with_entry (t : nat) (x : opt) (a : argus) : argus :=
  set_tabs a (alter (fun T => T ++ [x]) t (a_tabs a)).

(** An entry that says nothing by itself: an option or a group, without a default value, without a
    value in the environment, and not one that the entries of the table already required. *)
Record newcomer `{Libc} (a : argus) (t : nat) (x : opt) : Prop := Newcomer {
  nc_kind : d_type (decl_of x) = TOption \/ d_type (decl_of x) = TGroup;
  nc_unset : is_set x = false;
  nc_unallocated : is_allocated x = false;
  nc_environment : from_env (a_prefix a) x = None;
  nc_not_required : forall T d n, decls a !! t = Some T -> d ∈ T -> n ∈ default [] (d_require d) ->
    d_name (decl_of x) <> Some n;
}.
