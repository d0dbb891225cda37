(** * Words behind the one that ends a parse: property C89 *)
From Verif Require Import Validate Api LibProofs SpecGrammar GrammarProofs GrammarLemmas MoreFacts ExLib ExGrammar ExAfter
  SpecEnvironment SpecListen StopProofs SpecAfter.

(** ** C89 *)

(** A line that is refused for one of its words (not for a value that is missing at its end) is
    refused whatever is written behind it, with the same status, messages, values and memory. *)
Theorem C89_refused `{Libc} a argv its st b post : subs_present (decls a) -> is_Some (decls a !! a_root a) ->
  reads (decls a) (a_root a) 0 false argv its -> perform a its = Ok (st, b) -> st <> 0 -> st <> E_MISSING_VALUE ->
  argus_parse a (argv ++ post) = argus_parse a argv.
Proof. exact (refused_more a argv its st b post). Qed.
Print Assumptions C89_refused.

(** A line that leaves the program leaves it whatever is written behind it. *)
Theorem C89_exited `{Libc} a argv c a' post : argus_parse a argv = Ok (Exited c, a') ->
  argus_parse a (argv ++ post) = Ok (Exited c, a').
Proof. exact (exited_more a argv c a' post). Qed.
Print Assumptions C89_exited.

(** Neither depends on the environment. *)
Theorem C89_environment L L' a argv its st b : same_but_environment L L' ->
  subs_present (decls a) -> is_Some (decls a !! a_root a) ->
  reads (decls a) (a_root a) 0 false argv its -> perform (H := L) a its = Ok (st, b) -> st <> 0 ->
  argus_parse (H := L') a argv = argus_parse (H := L) a argv.
Proof. exact (refused_environment L L' a argv its st b). Qed.
Print Assumptions C89_environment.

(** A line whose last option lacks its value is completed by any word at all, also by one that
    looks like an option or is "--": that word becomes the value, and the rest is read as before. *)
Theorem C89_missing `{Libc} a argv its m : subs_present (decls a) -> is_Some (decls a !! a_root a) ->
  reads (decls a) (a_root a) 0 false argv its -> Reject E_MISSING_VALUE m ∈ its ->
  exists its0 t i, its = its0 ++ [Reject E_MISSING_VALUE m] /\
    forall v, reads (decls a) (a_root a) 0 false (argv ++ [v]) (its0 ++ [Call t i (Some v)]) /\
      parse_args a (Some (a_root a)) 0 false (argv ++ [v]) = perform a (its0 ++ [Call t i (Some v)]).
Proof. exact (missing_more a argv its m). Qed.
Print Assumptions C89_missing.

(** ** Examples *)

(** The text does not match the pattern: nothing behind it is looked at, not even a word for help. *)
Definition bad_line : list cstr := [$"-u"; $"me"; $"-r"; $"zz"].
Example C89_refused_example post : exists a',
  argus_parse (H := env1) rules_ctx (bad_line ++ $"--help" :: post) = Ok (Returned E_INVALID_VALUE, a').
Proof.
  exists (ran env1 rules_ctx bad_line).
  rewrite (C89_refused (H := env1) rules_ctx bad_line (plan_of rules_ctx bad_line) E_INVALID_VALUE (mid env1 rules_ctx bad_line) ($"--help" :: post)).
  - vm_compute. reflexivity.
  - apply rules_fresh.
  - apply rules_fresh.
  - apply plan_reads_of, rules_fresh.
  - vm_compute. reflexivity.
  - discriminate.
  - discriminate.
Qed.
Example C89_exited_example post :
  argus_parse (H := env1) rules_ctx ([$"-f"; $"-h"] ++ post) = Ok (Exited 0, ran env1 rules_ctx [$"-f"; $"-h"]).
Proof. apply C89_exited. vm_compute. reflexivity. Qed.
(** No variable makes the line acceptable. *)
Example C89_environment_example : argus_parse (H := libc_env []) rules_ctx bad_line = argus_parse (H := env1) rules_ctx bad_line.
Proof.
  apply (C89_environment env1 (libc_env []) rules_ctx bad_line (plan_of rules_ctx bad_line) E_INVALID_VALUE (mid env1 rules_ctx bad_line)).
  - reflexivity.
  - apply rules_fresh.
  - apply rules_fresh.
  - apply plan_reads_of, rules_fresh.
  - vm_compute. reflexivity.
  - discriminate.
Qed.
(** "-f -p" lacks the password; in "-f -p --help" the last word is the password. *)
Example C89_missing_example : exists its0 t i,
  [Call 0 4 None; Reject E_MISSING_VALUE (quoted_short $"Missing value for option: " "p"%char)] =
    its0 ++ [Reject E_MISSING_VALUE (quoted_short $"Missing value for option: " "p"%char)] /\
  reads (decls rules_ctx) 0 0 false [$"-f"; $"-p"; $"--help"] (its0 ++ [Call t i (Some ($"--help"))]).
Proof.
  destruct (C89_missing (H := env1) rules_ctx [$"-f"; $"-p"]
    [Call 0 4 None; Reject E_MISSING_VALUE (quoted_short $"Missing value for option: " "p"%char)] (quoted_short $"Missing value for option: " "p"%char))
    as (its0 & t & i & E & Hv).
  - apply rules_fresh.
  - apply rules_fresh.
  - apply (plan_reads_of rules_ctx [$"-f"; $"-p"]), rules_fresh.
  - right. left.
  - exists its0, t, i. split; [exact E|]. exact (proj1 (Hv ($"--help"))).
Qed.
