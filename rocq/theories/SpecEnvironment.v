(** * The same C library in an empty environment *)
From Verif Require Import Validate.

(** No variable is set; everything else is as before. *)
Definition unset (L : Libc) : Libc := {|
  getenv := fun _ => None;
  strtod := @strtod L;
  strtof := @strtof L;
  qsort := @qsort L;
  regex_enabled := @regex_enabled L;
  regex_match := @regex_match L;
  fmt_f := @fmt_f L;
  fmt_2g := @fmt_2g L |}.
