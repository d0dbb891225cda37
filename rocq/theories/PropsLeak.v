(** * Releasing all memory: more of property C35 *)
From Verif Require Import Macros Api Validate SpecGrammar SpecAfter SpecStructure SpecMemory SpecContents SpecSafe SpecCollections
  SpecMacros MacroProofs SafeFacts SafeWhole SpecTold SpecMessages SpecRefused SpecLeak LeakProofs ExLib ExAfter ExStructure ExMemory PropsCollections
  PropsTold PropsMessages PropsRefused.
From Verif Require Import SpecAfter.

(** Wherever the parse ends: when it fails or leaves it has released everything itself, after a
    success argus_free does.  What is missing: keys given twice and the first list of an option that is
    refused midway, see [C35_repeated_key_refuted] and [C35_refused_list_refuted]. *)
Theorem C35_released_partial `{Libc} a argv its x :
  accepted a -> no_strays (decls a) (a_root a) -> ready a -> library_only (decls a) -> qsort_sorts -> harmless_input a argv ->
  ending a argv its x -> keys_once a its -> not_begun a its x ->
  exists o a' a'', argus_parse a argv = Ok (o, a') /\ argus_free a' = Ok a'' /\ no_live_block a'' /\
    (o <> Returned 0 -> a'' = a').
Proof. exact (ended a argv its x). Qed.
Print Assumptions C35_released_partial.
(** Every parse ends in one of these ways. *)
Theorem C35_ending `{Libc} a argv :
  accepted a -> no_strays (decls a) (a_root a) -> ready a -> qsort_sorts -> harmless_input a argv ->
  exists its x, ending a argv its x.
Proof. exact (ending_exists a argv). Qed.
Print Assumptions C35_ending.
(** With keys given twice: at most one block stays alive for each pair whose key was there. *)
Theorem C35_lost `{Libc} a argv its a' : parsed a argv its a' -> exists a'' K, argus_free a' = Ok a'' /\
  (forall l b, blocks (a_heap a'') !! l = Some (Some b) -> exists t i, l ∈ K t i) /\
  forall t i, match entry_shape a t i with
              | Some (d, Mapped _) => exists c, map_filled d (texts t i its) c (length (K t i))
              | _ => K t i = []
              end.
Proof. exact (lost_blocks a argv its a'). Qed.
Print Assumptions C35_lost.

(** ** Examples *)
Lemma lists_library : library_only (decls lists_ctx).
Proof. apply library_dec. vm_compute. reflexivity. Qed.
Definition after (its : list item) (x : item) : argus := of_run libc0 (of_run libc0 lists_ctx its) [x].
Lemma ends_line argv its x its2 c : plan_of lists_ctx argv = its ++ x :: its2 ->
  perform (H := libc0) lists_ctx its = Ok (0, of_run libc0 lists_ctx its) ->
  perform (H := libc0) (of_run libc0 lists_ctx its) [x] = Ok (c, after its x) -> c <> 0 ->
  ending (H := libc0) lists_ctx argv its (Some x).
Proof.
  intros Hp E Ex Hc. eapply (end_line (H := libc0) lists_ctx argv its x its2); [|exact E|exact Ex|exact Hc].
  apply reads_plan; [exact lists_fresh|exact Hp].
Qed.
(** "-t a,b -D k=1 --nope": a token that is no option, after a list and a map. *)
Example C35_token_example : exists o a' a'', argus_parse (H := libc0) lists_ctx [$"-t"; $"a,b"; $"-D"; $"k=1"; $"--nope"] = Ok (o, a') /\
  argus_free a' = Ok a'' /\ no_live_block a'' /\ (o <> Returned 0 -> a'' = a').
Proof.
  set (argv := [$"-t"; $"a,b"; $"-D"; $"k=1"; $"--nope"]).
  apply (C35_released_partial (H := libc0) lists_ctx argv (take 2 (plan_of lists_ctx argv)) (Some (default (Enter 0 0) (plan_of lists_ctx argv !! 2%nat)))
    (lists_accepted []) lists_strays lists_ready lists_library (env_sorts [])).
  - apply (check_harmless_failed libc0 lists_ctx argv 12 lists_fresh); [discriminate|vm_compute; reflexivity|vm_compute; reflexivity].
  - apply (ends_line argv _ (default (Enter 0 0) (plan_of lists_ctx argv !! 2%nat)) [] 12); [vm_compute; reflexivity..|discriminate].
  - apply (keys_onceb_ok libc0). vm_compute. reflexivity.
  - intros t i v T d E. vm_compute in E. discriminate.
Qed.
(** "-r 1-9 -t a -r 1,x f": a list refused midway for an option that has values. *)
Example C35_list_example : exists o a' a'', argus_parse (H := libc0) lists_ctx [$"-r"; $"1-9"; $"-t"; $"a"; $"-r"; $"1,x"; $"f"] = Ok (o, a') /\
  argus_free a' = Ok a'' /\ no_live_block a'' /\ (o <> Returned 0 -> a'' = a').
Proof.
  set (argv := [$"-r"; $"1-9"; $"-t"; $"a"; $"-r"; $"1,x"; $"f"]).
  apply (C35_released_partial (H := libc0) lists_ctx argv [Call 0 3 (Some ($"1-9")); Call 0 1 (Some ($"a"))] (Some (Call 0 3 (Some ($"1,x"))))
    (lists_accepted []) lists_strays lists_ready lists_library (env_sorts [])).
  - apply (check_harmless_failed libc0 lists_ctx argv 16 lists_fresh); [discriminate|vm_compute; reflexivity|vm_compute; reflexivity].
  - apply (ends_line argv _ _ (drop 3 (plan_of lists_ctx argv)) 16); [vm_compute; reflexivity..|discriminate].
  - apply (keys_onceb_ok libc0). vm_compute. reflexivity.
  - intros t i v T d [= <- <- <-] [= <-] [= <-]. right. right. split; [eexists; reflexivity|]. eexists. left.
Qed.
(** "-t a -h": leaving after the help. *)
Example C35_leaving_example : exists o a' a'', argus_parse (H := libc0) lists_ctx [$"-t"; $"a"; $"-h"] = Ok (o, a') /\
  argus_free a' = Ok a'' /\ no_live_block a'' /\ (o <> Returned 0 -> a'' = a').
Proof.
  set (argv := [$"-t"; $"a"; $"-h"]).
  apply (C35_released_partial (H := libc0) lists_ctx argv [Call 0 1 (Some ($"a"))] (Some (Call 0 0 None))
    (lists_accepted []) lists_strays lists_ready lists_library (env_sorts [])).
  - apply (check_harmless_failed libc0 lists_ctx argv 1 lists_fresh); [discriminate|vm_compute; reflexivity|vm_compute; reflexivity].
  - apply (ends_line argv _ _ [] 1); [vm_compute; reflexivity..|discriminate].
  - apply (keys_onceb_ok libc0). vm_compute. reflexivity.
  - intros t i v T d [= <- <- <-] [= <-] [= <-]. left. reflexivity.
Qed.
(** "-t a": the file is missing. *)
Example C35_check_example : exists o a' a'', argus_parse (H := libc0) lists_ctx [$"-t"; $"a"] = Ok (o, a') /\
  argus_free a' = Ok a'' /\ no_live_block a'' /\ (o <> Returned 0 -> a'' = a').
Proof.
  set (argv := [$"-t"; $"a"]).
  apply (C35_released_partial (H := libc0) lists_ctx argv [Call 0 1 (Some ($"a"))] None
    (lists_accepted []) lists_strays lists_ready lists_library (env_sorts [])).
  - apply (check_harmless libc0 lists_ctx argv lists_fresh); vm_compute; reflexivity.
  - apply (end_all (H := libc0) lists_ctx argv _ (of_run libc0 lists_ctx [Call 0 1 (Some ($"a"))])); [|vm_compute; reflexivity].
    apply (all_assigned libc0 lists_ctx argv lists_fresh). vm_compute. reflexivity.
  - apply (keys_onceb_ok libc0). vm_compute. reflexivity.
  - intros t i v T d [=].
Qed.
Example C35_ending_example : exists its x, ending (H := libc0) lists_ctx line its x.
Proof.
  apply (C35_ending (H := libc0) lists_ctx line (lists_accepted []) lists_strays lists_ready (env_sorts [])).
  apply (check_harmless libc0 lists_ctx line lists_fresh); vm_compute; reflexivity.
Qed.
(** "-D k=1,k=2 f" *)
Definition line3 : list cstr := [$"-D"; $"k=1,k=2"; $"f"].
Example C35_lost_example : exists a'' K, argus_free (ran libc0 lists_ctx line3) = Ok a'' /\
  (forall l b, blocks (a_heap a'') !! l = Some (Some b) -> exists t i, l ∈ K t i) /\
  forall t i, match entry_shape lists_ctx t i with
              | Some (d, Mapped _) => exists c, map_filled (H := libc0) d (texts t i (all_items libc0 lists_ctx line3)) c (length (K t i))
              | _ => K t i = []
              end.
Proof.
  apply (C35_lost (H := libc0) lists_ctx line3). apply (lists_parsed []); vm_compute; reflexivity.
Qed.
