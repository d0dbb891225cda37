(** * Specification: what can be asked for on a command line (C75) *)
From Verif Require Import Validate Api SpecGrammar SpecAfter SpecStructure.

(** A long name that can be typed: the reader ends a typed name at '=' and compares 63 characters. *)
Definition typeable (n : cstr) : Prop := "="%char ∉ n /\ (length n <= 63)%nat.
(** A short name that cannot be mistaken for the beginning of a number. *)
Definition plain_letter (c : ascii) : Prop := c <> Ascii.zero /\ c ∉ digits.
(** An option that has a name of either kind. *)
Definition can_be_named (d : decl) : Prop :=
  (exists n, d_lname d = Some n /\ typeable n) \/ plain_letter (d_sname d).
(** No subcommand before entry [i] has a name that begins with (or is) the name [n]. *)
Definition not_hidden (T : list decl) (i : nat) (n : cstr) : Prop :=
  forall j e r, (j < i)%nat -> T !! j = Some e -> d_type e = TSubcommand -> d_name e <> Some (n ++ r).
Definition only_subcommand (T : list decl) (i : nat) : Prop :=
  forall j e, T !! j = Some e -> d_type e = TSubcommand -> j = i.
(** The word is not an option. *)
Definition no_dash (w : cstr) : Prop := forall s, w <> "-"%char :: s.

(** [request D t its]: beginning in table [t], the items [its] are what a user may want: options
    (flags without a text, the others with any text), then either texts for the positionals, or
    a subcommand and a request there. *)
Inductive request (D : list (list decl)) : nat -> list item -> Prop :=
  | rq_words t T r ws :
      D !! t = Some T ->
      (forall j w, ws !! j = Some w -> receives T j (r j) /\ w <> $"--") ->
      request D t (handed t r 0 ws)
  | rq_option t T i d v its :
      D !! t = Some T -> T !! i = Some d -> d_type d = TOption -> can_be_named d ->
      (v = None <-> flag_option d) ->
      request D t its -> request D t (Call t i v :: its)
  | rq_sub t T i d n t' its :
      D !! t = Some T -> T !! i = Some d -> d_type d = TSubcommand -> d_name d = Some n ->
      no_dash n -> not_hidden T i n -> d_sub d = Some t' ->
      request D t' its -> request D t (Enter t i :: its).
