(** * Properties of the words of a command line *)
From Verif Require Import Macros Api SpecGrammar GrammarProofs SpecWords WordsProofs ExLib ExGrammar.

(** ** C61 *)

(** An accepted line is the execution of items in which every word, other than one dash or two,
    is used, in order and once: as the name of an entry or as the text given to one. *)
Theorem C61_words_partial `{Libc} a argv a' :
  subs_present (decls a) -> is_Some (decls a !! a_root a) ->
  argus_parse a argv = Ok (Returned 0, a') ->
  exists its a1, parse_args a (Some (a_root a)) 0 false argv = Ok (0, a1) /\ perform a its = Ok (0, a1) /\
    (forall c m, Reject c m ∉ its) /\
    exists us, sublist us (concat (map uses_of its)) /\ Forall2 (used_as (decls a)) (telling argv) us.
Proof. exact (words_used a argv a'). Qed.
Print Assumptions C61_words_partial.

Example C61_example : exists its a1,
  perform (H := libc0) ex_flat_ctx its = Ok (0, a1) /\
  exists us, sublist us (concat (map uses_of its)) /\
    Forall2 (used_as (decls ex_flat_ctx)) [$"-vxo"; $"-g"; $"--num=4"; $"7"; $"fast"; $"--tags"; $"a,b"; $"x"; $"-n"] us.
Proof.
  assert (S1 : subs_present (decls ex_flat_ctx)) by (apply subs_presentb_ok; vm_compute; reflexivity).
  assert (R1 : is_Some (decls ex_flat_ctx !! a_root ex_flat_ctx)) by (vm_compute; eauto).
  set (argv := [$"-vxo"; $"-g"; $"-"; $"--num=4"; $"7"; $"fast"; $"--tags"; $"a,b"; $"--"; $"x"; $"-n"]).
  assert (E : exists a', argus_parse (H := libc0) ex_flat_ctx argv = Ok (Returned 0, a'))
    by (eexists; vm_compute; reflexivity).
  destruct E as [a' E]. destruct (C61_words_partial (H := libc0) _ _ _ S1 R1 E) as (its & a1 & _ & Hp & _ & us & Hs & Hf).
  exists its, a1. split; [exact Hp|]. exists us. split; [exact Hs|]. exact Hf.
Qed.

(** What is missing: one dash, where an option is expected, is lost in every command line. *)
Theorem C61_dash_refuted `{Libc} a pre t T k its post :
  reached a pre t T k false its ->
  argus_parse a (pre ++ $"-" :: post) = argus_parse a (pre ++ post).
Proof. exact (dash_lost a pre t T k its post). Qed.
Print Assumptions C61_dash_refuted.
(** A table with positional arguments left to fill. *)
Example C61_dash_example :
  argus_parse (H := libc0) ex_flat_ctx [$"4"; $"-"; $"f"; $"g"] = argus_parse (H := libc0) ex_flat_ctx [$"4"; $"f"; $"g"] /\
  exists a', argus_parse (H := libc0) ex_flat_ctx [$"4"; $"f"; $"g"] = Ok (Returned 0, a').
Proof.
  split; [|eexists; vm_compute; reflexivity].
  eapply (C61_dash_refuted _ [$"4"] 0 T0 1). constructor.
  - apply subs_presentb_ok. vm_compute. reflexivity.
  - vm_compute. eauto.
  - reflexivity.
  - eapply leads_word; vm_compute; [reflexivity|discriminate|reflexivity|reflexivity].
Qed.
