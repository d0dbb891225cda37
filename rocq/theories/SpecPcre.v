(** * Specification: how regex_validator uses PCRE2 (C79) *)
From Verif Require Import PcreCalls.

(** All objects of [s] but the first [n] are released, and those are as before. *)
Definition all_released (before after : list (option pobject)) : Prop :=
  exists more, after = before ++ more /\ Forall (fun x => x = None) more.

(** The answers [Parse.v] takes as given are those of the engine. *)
Definition answers `{Pcre} (L : Libc) : Prop :=
  regex_enabled = true /\ forall p s,
    match pcre_error p with
    | Some _ => regex_match p s = RxBadPattern
    | None =>
        (pcre_match p s >= 0 -> regex_match p s = RxMatch) /\
        (pcre_match p s = -1 -> regex_match p s = RxNoMatch) /\
        (pcre_match p s < -1 -> regex_match p s = RxError)
    end.

(** The text of a piece of a message; what PCRE2 says about a pattern and a text is spelt out. *)
Definition spelt `{Pcre} (p : cstr) (v : option cstr) (x : piece) : piece :=
  match x with
  | MPcre _ =>
      match pcre_error p, v with
      | Some e, _ => MText (take 255 (pcre_text e))
      | None, Some s => MInt (pcre_match p s)
      | None, None => x
      end
  | _ => x
  end.
Definition spelt_event `{Pcre} (p : cstr) (v : option cstr) (e : event) : event :=
  match e with EDiag c m => EDiag c (map (spelt p v) m) | _ => e end.
