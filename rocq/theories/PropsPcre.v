(** * How the regex validator uses PCRE2: property C79 *)
From Coq Require Import Lia.
From Verif Require Import PcreCalls SpecPcre PcreProofs ExLib.

(** Whatever the pattern, the text and the failures: no call is given an object that does not exist
    or was released, and every object created is released. *)
Theorem C79_released `{Pcre} pattern hint v s :
  exists st s', regex_validator_calls pattern hint v s = Ok (st, s') /\ all_released (p_objects s) (p_objects s').
Proof.
  destruct (calls_run pattern hint v s) as (st & more & f & ev & E & Hall & _).
  eexists _, _. split; [exact E|]. by exists more.
Qed.
Print Assumptions C79_released.

(** A text is let through only if the pattern compiles and PCRE2 says that it matches; lack of memory
    never lets one through.  With ample memory these are let through.  A refusal is told with
    exactly one message, of the code that is returned. *)
Theorem C79_decides `{Pcre} pattern hint v s st s' :
  regex_validator_calls pattern hint v s = Ok (st, s') ->
  (st = 0 -> p_log s' = p_log s /\
     exists p t, pattern = Some p /\ v = Some t /\ pcre_error p = None /\ 0 <= pcre_match p t) /\
  (p_fail s = [] -> forall p t, pattern = Some p -> v = Some t -> pcre_error p = None -> 0 <= pcre_match p t -> st = 0) /\
  (st <> 0 -> exists m, p_log s' = p_log s ++ [EDiag st m]).
Proof.
  destruct (calls_run pattern hint v s) as (st0 & more & f & ev & E & _ & D). rewrite E. intros [= <- <-].
  cbn [p_log]. destruct D as [(-> & -> & X)|(Hst & (m & ->) & X)].
  - split; [intros _; split; [by rewrite app_nil_r|done]|]. done.
  - split; [done|]. split; [|by eexists]. intros Hz p t Hp Hv He Hm. specialize (X Hz p t Hp Hv He). lia.
Qed.
Print Assumptions C79_decides.

(** With ample memory this is the validator of Parse.v: same status, same messages with PCRE2's
    words put in. *)
Theorem C79_model `{Pcre} (L : Libc) p hint v s st ev :
  answers L -> p_fail s = [] -> regex_validator (Some p) hint v = Ok (st, ev) ->
  exists s', regex_validator_calls (Some p) hint v s = Ok (st, s') /\ p_log s' = p_log s ++ map (spelt_event p v) ev.
Proof. exact (calls_model L p hint v s st ev). Qed.
Print Assumptions C79_model.

(** An engine that knows one pattern, "^a+$"; "a(" does not compile, "x" exceeds the match limit. *)
#[local] Instance pcre0 : Pcre := {|
  pcre_error := fun p => if bool_decide (p = $"a(") then Some 114 else None;
  pcre_match := fun p s =>
    if bool_decide (p = $"x") then -47
    else if bool_decide (s <> []) && forallb (Ascii.eqb "a") s then 1 else -1;
  pcre_text := fun _ => $"missing closing parenthesis" |}.
Definition libc_engine : Libc := {|
  getenv := fun _ => None; strtod := strtod0; strtof := fun s => fst (strtod0 s); qsort := @insertion_sort;
  regex_enabled := true;
  regex_match := fun p s =>
    match pcre_error p with
    | Some _ => RxBadPattern
    | None => if pcre_match p s >=? 0 then RxMatch else if pcre_match p s =? -1 then RxNoMatch else RxError
    end;
  fmt_f := fun _ => []; fmt_2g := fun _ => [] |}.
Example C79_example :
  answers libc_engine /\
  regex_validator_calls (Some ($"^a+$")) None (Some ($"aa")) (Pst [] [] []) = Ok (0, Pst [None; None] [] []) /\
  regex_validator_calls (Some ($"^a+$")) (Some ($"letters a")) (Some ($"ab")) (Pst [] [] []) =
    Ok (E_INVALID_VALUE, Pst [None; None] [] [EDiag E_INVALID_VALUE
      [MText $"Value '"; MStr (Some ($"ab")); MText $"' does not match required pattern: "; MStr (Some ($"letters a"))]]) /\
  regex_validator_calls (Some ($"a(")) None (Some ($"ab")) (Pst [] [] []) =
    Ok (E_INVALID_FORMAT, Pst [] [] [EDiag E_INVALID_FORMAT
      [MText $"Failed to compile regex '"; MStr (Some ($"a(")); MText $"': "; MText ($"missing closing parenthesis")]]) /\
  regex_validator_calls (Some ($"^a+$")) None (Some ($"aa")) (Pst [] [false; true] []) =
    Ok (E_INVALID_FORMAT, Pst [None] [] [EDiag E_INVALID_FORMAT
      [MText $"Internal error: Regex match failed with error code "; MInt (-51)]]) /\
  regex_validator (H := libc_engine) (Some ($"x")) None (Some ($"aa")) =
    Ok (E_INVALID_FORMAT, [EDiag E_INVALID_FORMAT [MText $"Internal error: Regex match failed with error code "; MPcre ($"x")]]) /\
  regex_validator_calls (Some ($"x")) None (Some ($"aa")) (Pst [] [] []) =
    Ok (E_INVALID_FORMAT, Pst [None; None] [] [EDiag E_INVALID_FORMAT
      [MText $"Internal error: Regex match failed with error code "; MInt (-47)]]).
Proof.
  split.
  - split; [done|]. intros p s. cbn [regex_match libc_engine]. destruct (pcre_error p); [done|].
    split; [|split]; intros Hr.
    + destruct (Z.geb_spec (pcre_match p s) 0); [done|lia].
    + rewrite Hr. done.
    + destruct (Z.geb_spec (pcre_match p s) 0); [lia|]. destruct (Z.eqb_spec (pcre_match p s) (-1)); [lia|done].
  - repeat split; vm_compute; reflexivity.
Qed.
