(** * Specification: the same options in another order *)
From Verif Require Import State SpecGrammar SpecReuse.

(** The entry [i] of table [t] takes a single value, and prints nothing unless it leaves. *)
Definition quiet_single (D : list (list decl)) (t i : nat) : Prop :=
  exists T d f, D !! t = Some T /\ T !! i = Some d /\ d_handler d = Some f /\ single_handler f /\
    (f = HHelp \/ f = HVersion -> N.testbit (d_flags d) 5 = true).
(** Two neighbouring values change places.  They belong to different entries, of which at least one
    takes a single value. *)
Inductive exchange (D : list (list decl)) : list item -> list item -> Prop :=
  | ex_swap its1 t i v t' i' v' its2 : (t, i) <> (t', i') -> quiet_single D t i \/ quiet_single D t' i' ->
      exchange D (its1 ++ Call t i v :: Call t' i' v' :: its2) (its1 ++ Call t' i' v' :: Call t i v :: its2).
(** Any number of such exchanges. *)
Inductive reordered (D : list (list decl)) : list item -> list item -> Prop :=
  | ro_same its : reordered D its its
  | ro_more its1 its2 its3 : exchange D its1 its2 -> reordered D its2 its3 -> reordered D its1 its3.
