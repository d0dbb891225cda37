(** * Specification of bounded string functions: what a buffer holds *)
From Verif Require Export Buffer.

(** Buffer [b] holds the text [s], terminated; [rest] are the bytes after the terminator. *)
Definition holds (b : bytes) (s : cstr) (rest : bytes) : Prop :=
  b = map Some s ++ Some terminator :: rest /\ terminator ∉ s.
