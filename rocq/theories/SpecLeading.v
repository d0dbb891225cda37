(** * Specification of the integer at the beginning of any text *)
From Verif Require Export Api SpecGrammar SpecAfter SpecValues.

(** White space of the C locale. *)
Definition blanks : cstr := (" " :: "009" :: "010" :: "011" :: "012" :: "013" :: nil)%char.
Definition sign_of (neg : option bool) : cstr :=
  match neg with None => [] | Some true => $"-" | Some false => $"+" end.
Definition with_sign (neg : option bool) (v : Z) : Z := match neg with Some true => - v | _ => v end.
(** [s] begins, after white space, with an integer of value [n], written as long as possible. *)
Definition begins_with (s : cstr) (n : Z) : Prop :=
  exists ws neg text ds rest,
    s = ws ++ sign_of neg ++ text ++ rest /\ Forall (fun c => c ∈ blanks) ws /\ written text ds /\ text <> [] /\
    (forall c rest', rest = c :: rest' -> c ∉ digit_chars) /\ n = with_sign neg (digits_value 0 ds).
(** The integer a text stands for: the one it begins with, or else 0. *)
Definition leading (s : cstr) (n : Z) : Prop := begins_with s n \/ (n = 0 /\ forall m, ~ begins_with s m).

(** The part of an integer that fits in 32 bits. *)
Definition low_half (n m : Z) : Prop := - 2 ^ 31 <= m < 2 ^ 31 /\ exists k, n = m + k * 2 ^ 32.
