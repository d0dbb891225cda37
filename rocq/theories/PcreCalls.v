(** * The calls of PCRE2 made by regex_validator
      (source/callbacks/validators/regex_validator.c 31-85, with ARGUS_REGEX)

    [Parse.v] takes the answer of PCRE2 for a pattern and a text as given; here the same function
    runs on a model of the library's objects: compiled patterns and match data are created, may not
    be obtained for lack of memory, and have to be released.  What the calls do is taken from the
    PCRE2 manual (pcre2api). *)
From Verif Require Export Parse.

(** Compiled patterns and match data; the list of all that were ever created, [None] = released. *)
Inductive pobject := PCode (pattern : cstr) | PData.
Record pst := Pst { p_objects : list (option pobject); p_fail : list bool; p_log : list event }.
Definition PM (A : Type) : Type := pst -> res (A * pst).
Definition pret {A} (x : A) : PM A := fun s => Ok (x, s).
Definition pbind {A B} (m : PM A) (k : A -> PM B) : PM B :=
  fun s => match m s with Ok (x, s') => k x s' | UB u => UB u end.
Definition pemit (e : event) : PM unit := fun s => Ok (tt, Pst (p_objects s) (p_fail s) (p_log s ++ [e])).

(** The engine: the error code for a pattern that does not compile, the result of a match, and the
    texts of error codes. *)
Class Pcre := {
  pcre_error : cstr -> option Z;
  pcre_match : cstr -> cstr -> Z;
  pcre_text : Z -> cstr;
}.
Definition PCRE2_ERROR_NOMATCH : Z := -1.
Definition PCRE2_ERROR_NULL : Z := -51.
Definition PCRE2_ERROR_HEAP_FAILED : Z := 121.

Section calls.
Context `{Pcre}.

(** A new object, unless memory is lacking. *)
Definition pnew (x : pobject) : PM (option nat) := fun s =>
  match p_fail s with
  | true :: f => Ok (None, Pst (p_objects s) f (p_log s))
  | _ => Ok (Some (length (p_objects s)), Pst (p_objects s ++ [Some x]) (tail (p_fail s)) (p_log s))
  end.
(** The object behind a pointer. *)
Definition pderef (p : option nat) : PM pobject := fun s =>
  match p with
  | None => UB NullDeref
  | Some l =>
      match p_objects s !! l with
      | Some (Some x) => Ok (x, s)
      | Some None => UB UseAfterFree
      | None => UB WildPtr
      end
  end.
(** Releasing: nothing for NULL. *)
Definition prelease (p : option nat) : PM unit := fun s =>
  match p with
  | None => Ok (tt, s)
  | Some l =>
      match p_objects s !! l with
      | Some (Some _) => Ok (tt, Pst (<[l := None]> (p_objects s)) (p_fail s) (p_log s))
      | _ => UB InvalidFree
      end
  end.

(** pcre2_compile: the pattern, or NULL and an error code. *)
Definition pcre2_compile (p : cstr) : PM (option nat * Z) :=
  match pcre_error p with
  | Some e => pret (None, e)
  | None => pbind (pnew (PCode p)) (fun r => pret (r, match r with Some _ => 100 | None => PCRE2_ERROR_HEAP_FAILED end))
  end.
(** pcre2_match_data_create_from_pattern reads the compiled pattern. *)
Definition pcre2_match_data_create (re : option nat) : PM (option nat) :=
  pbind (pderef re) (fun _ => pnew PData).
(** pcre2_match: NULL for the text (of unknown length) or the match data is refused before use. *)
Definition pcre2_match_call (re : option nat) (v : option cstr) (md : option nat) : PM Z :=
  match re, v, md with
  | None, _, _ | _, None, _ | _, _, None => pret PCRE2_ERROR_NULL
  | _, Some s, _ =>
      pbind (pderef re) (fun c => pbind (pderef md) (fun d =>
        match c, d with
        | PCode p, PData => pret (pcre_match p s)
        | _, _ => fun _ => UB TypeConfusion
        end))
  end.

(** regex_validator (40-84).  The buffer of the error text has 256 bytes (52-53). *)
Definition regex_validator_calls (pattern hint v : option cstr) : PM Z :=
  match pattern with
  | None => pbind (pemit (EDiag E_INVALID_VALUE [MText $"Regular expression pattern is NULL"])) (fun _ => pret E_INVALID_VALUE)
  | Some p =>
      pbind (pcre2_compile p) (fun '(re, errorcode) =>
      match re with
      | None =>
          pbind (pemit (EDiag E_INVALID_FORMAT
            [MText $"Failed to compile regex '"; MStr (Some p); MText $"': "; MText (snprintf 256 (pcre_text errorcode))]))
            (fun _ => pret E_INVALID_FORMAT)
      | Some _ =>
          pbind (pcre2_match_data_create re) (fun md =>
          pbind (pcre2_match_call re v md) (fun rc =>
          pbind (prelease md) (fun _ =>
          pbind (prelease re) (fun _ =>
          if rc <? 0 then
            if rc =? PCRE2_ERROR_NOMATCH then
              pbind (pemit (EDiag E_INVALID_VALUE
                match hint with
                | Some (c :: h) =>
                    [MText $"Value '"; MStr v; MText $"' does not match required pattern: "; MStr (Some (c :: h))]
                | _ => [MText $"Value '"; MStr v; MText $"' does not match the expected format"]
                end)) (fun _ => pret E_INVALID_VALUE)
            else
              pbind (pemit (EDiag E_INVALID_FORMAT
                [MText $"Internal error: Regex match failed with error code "; MInt rc])) (fun _ => pret E_INVALID_FORMAT)
          else pret SUCCESS))))
      end)
  end.
End calls.
