(** * Specification: the message about a refused value *)
From Verif Require Import Api Display SpecGrammar SpecAfter SpecValues SpecMemory SpecContents SpecMessages.

Section said.
Context `{Libc} (pcre : cstr -> cstr).

(** ** Validators that look at the text *)
Inductive text_refusal : vfun -> option cstr -> Z -> cstr -> Prop :=
  | tr_off p hint v : regex_enabled = false ->
      text_refusal (VRegex p hint) v 29 ($"regex support is not available")
  | tr_null hint v : regex_enabled = true ->
      text_refusal (VRegex None hint) v 29 ($"Regular expression pattern is NULL")
  | tr_pattern p hint s : regex_enabled = true -> regex_match p s = RxBadPattern ->
      text_refusal (VRegex (Some p) hint) (Some s) 16 (in_quotes $"Failed to compile regex " p ++ $": " ++ pcre p)
  | tr_plain p hint s : regex_enabled = true -> regex_match p s = RxNoMatch -> hint = None \/ hint = Some [] ->
      text_refusal (VRegex (Some p) hint) (Some s) 29 (in_quotes $"Value " s ++ $" does not match the expected format")
  | tr_hint p hint s : regex_enabled = true -> regex_match p s = RxNoMatch -> hint <> [] ->
      text_refusal (VRegex (Some p) (Some hint)) (Some s) 29
        (in_quotes $"Value " s ++ $" does not match required pattern: " ++ hint)
  | tr_no_pattern p hint : regex_enabled = true -> regex_match p [] = RxBadPattern ->
      text_refusal (VRegex (Some p) hint) None 16 (in_quotes $"Failed to compile regex " p ++ $": " ++ pcre p)
  | tr_no_value p hint : regex_enabled = true -> regex_match p [] <> RxBadPattern ->
      text_refusal (VRegex (Some p) hint) None 16 ($"Internal error: Regex match failed with error code -51")
  | tr_error p hint s : regex_enabled = true -> regex_match p s = RxError ->
      text_refusal (VRegex (Some p) hint) (Some s) 16 ($"Internal error: Regex match failed with error code " ++ pcre p).
Definition passes (d : decl) (v : option cstr) : Prop :=
  forall e, e ∈ validators d -> v_order e = ORDER_PRE -> accepts_text (v_fun e) v.

(** ** Words *)

(** A digit, '-' or ':', a digit or '-'. *)
Definition has_range (w : cstr) : Prop :=
  exists l p c n r, w = l ++ p :: c :: n :: r /\ p ∈ digit_chars /\ (c = "-"%char \/ c = ":"%char) /\
    (n ∈ digit_chars \/ n = "-"%char).
(** What the array of integers takes. *)
Definition int_word (w : cstr) : Prop := has_range w \/ snd (strtoll w) = [].
(** An integer and nothing else. *)
Definition whole_int (w : cstr) : Prop := w <> [] /\ snd (strtoll w) = [].
(** A floating-point number and nothing else. *)
Definition whole_float (w : cstr) : Prop := (0 < snd (strtod w))%nat /\ (length w <= snd (strtod w))%nat.
(** The same, as the map handlers decide it. *)
Definition map_float (w : cstr) : Prop := w <> [] /\ (length w <= snd (strtod w))%nat.
Definition boolean (w : cstr) : Prop := exists b, bool_word w b.

(** What the values of a map are, what they are called in the message, and its end. *)
Inductive values_of : handler -> (cstr -> Prop) -> cstr -> cstr -> Prop :=
  | vo_string n e : values_of HMapString (fun _ => True) n e
  | vo_int : values_of HMapInt whole_int ($"integer") []
  | vo_float : values_of HMapFloat map_float ($"float") []
  | vo_bool : values_of HMapBool boolean ($"boolean") ($" (expected true/false, yes/no, 1/0, on/off, y/n)").
Definition pair_of (valid : cstr -> Prop) (w : cstr) : Prop := exists k t, key_value w k t /\ valid t.

(** ** [value_said d v c t]: the option [d] refuses the value [v] with error [c] and text [t]. *)
Inductive value_said (d : decl) : option cstr -> Z -> cstr -> Prop :=
  (* the first validator that refuses *)
  | vs_validator v l1 e l2 c t : validators d = l1 ++ e :: l2 -> v_order e = ORDER_PRE ->
      text_refusal (v_fun e) v c t ->
      (forall e', e' ∈ l1 -> v_order e' = ORDER_PRE -> accepts_text (v_fun e') v) ->
      value_said d v c t
  | vs_bool s : passes d (Some s) -> d_handler d = Some HBool -> ~ boolean s ->
      value_said d (Some s) 12 (in_quotes $"Invalid boolean value: " s ++ $". Expected 'true' or 'false'")
  | vs_no_bool n : passes d None -> d_handler d = Some HBool -> d_name d = Some n ->
      value_said d None 12 (in_quotes $"Invalid argument for option: " n)
  | vs_variadic_int s n : passes d (Some s) -> d_handler d = Some HVariadicInt -> ~ whole_int s -> d_name d = Some n ->
      value_said d (Some s) 29 (in_quotes $"Invalid integer value " s ++ in_quotes $" for positional argument " n)
  | vs_variadic_float s n : passes d (Some s) -> d_handler d = Some HVariadicFloat -> ~ whole_float s -> d_name d = Some n ->
      value_said d (Some s) 29 (in_quotes $"Invalid float value " s ++ in_quotes $" for positional argument " n)
  (* the first element of a list that is refused *)
  | vs_ints s ws1 w ws2 : passes d (Some s) -> d_handler d = Some HArrayInt -> elements s (ws1 ++ w :: ws2) ->
      Forall int_word ws1 -> ~ int_word w ->
      value_said d (Some s) 16 (in_quotes $"Invalid integer or range format: " w)
  | vs_no_pair f valid n e s ws1 w ws2 : passes d (Some s) -> d_handler d = Some f -> values_of f valid n e ->
      elements s (ws1 ++ w :: ws2) -> Forall (pair_of valid) ws1 -> "="%char ∉ w ->
      value_said d (Some s) 16 (in_quotes $"Invalid key-value format, expected 'key=value': " w)
  | vs_pair f valid n e s ws1 w ws2 k t : passes d (Some s) -> d_handler d = Some f -> values_of f valid n e ->
      elements s (ws1 ++ w :: ws2) -> Forall (pair_of valid) ws1 -> key_value w k t -> ~ valid t ->
      value_said d (Some s) 29 (in_quotes ($"Invalid " ++ n ++ $" value for key ") k ++ in_quotes $": " t ++ e).

(** The option takes the value. *)
Definition value_taken (d : decl) (v : option cstr) : Prop :=
  passes d v /\
  match d_handler d, v with
  | Some HBool, Some s => boolean s
  | Some HBool, None => False
  | Some HVariadicInt, Some s => whole_int s
  | Some HVariadicFloat, Some s => whole_float s
  | Some HArrayInt, Some s => forall ws, elements s ws -> Forall int_word ws
  | Some f, Some s => forall valid n e ws, values_of f valid n e -> elements s ws -> Forall (pair_of valid) ws
  | _, _ => True
  end.
End said.
