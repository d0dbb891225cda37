(** * The first list of an option, refused midway: more of property C35 *)
From Verif Require Import Macros Api Validate SpecGrammar SpecAfter SpecStructure SpecMemory SpecContents SpecSafe SpecCollections
  SpecMacros MacroProofs SafeFacts SafeWhole SpecTold SpecMessages SpecRefused SpecLeak LeakProofs MidwayProofs ExLib ExAfter ExStructure ExMemory PropsCollections
  PropsTold PropsMessages PropsRefused PropsLeak.
From Verif Require Import SpecAfter.

(** A parse that ends at the first text of an option, of whatever kind and however far its handler
    came: every block that was allocated before that text is released, only blocks allocated while
    handling it can stay alive.  argus_free does nothing more afterwards. *)
Theorem C35_midway `{Libc} a argv its t i v a1 :
  accepted a -> no_strays (decls a) (a_root a) -> ready a -> qsort_sorts -> harmless_input a argv ->
  ending a argv its (Some (Call t i v)) -> keys_once a its -> (forall w, Call t i w ∉ its) -> perform a its = Ok (0, a1) ->
  exists o a', argus_parse a argv = Ok (o, a') /\ o <> Returned 0 /\ argus_free a' = Ok a' /\
    forall l b, blocks (a_heap a') !! l = Some (Some b) -> (length (blocks (a_heap a1)) <= l)%nat.
Proof. exact (midway a argv its t i v a1). Qed.
Print Assumptions C35_midway.

(** "-t a,b -D k=1 -r 1,x f": the blocks of the list and of the map are released; the array begun for
    -r is not. *)
Example C35_midway_example :
  let argv := [$"-t"; $"a,b"; $"-D"; $"k=1"; $"-r"; $"1,x"; $"f"] in
  let its := [Call 0 1 (Some ($"a,b")); Call 0 7 (Some ($"k=1"))] in
  (exists l b, blocks (a_heap (of_run libc0 lists_ctx its)) !! l = Some (Some b)) /\
  exists o a', argus_parse (H := libc0) lists_ctx argv = Ok (o, a') /\ o <> Returned 0 /\ argus_free a' = Ok a' /\
    forall l b, blocks (a_heap a') !! l = Some (Some b) -> (length (blocks (a_heap (of_run libc0 lists_ctx its))) <= l)%nat.
Proof.
  intros argv its. split.
  - exists 3%nat. vm_compute. eexists. reflexivity.
  - apply (C35_midway (H := libc0) lists_ctx argv its 0 3 (Some ($"1,x")) _ (lists_accepted []) lists_strays lists_ready (env_sorts [])).
    + apply (check_harmless_failed libc0 lists_ctx argv 16 lists_fresh); [discriminate|vm_compute; reflexivity|vm_compute; reflexivity].
    + apply (ends_line argv _ _ (drop 3 (plan_of lists_ctx argv)) 16); [vm_compute; reflexivity..|discriminate].
    + apply (keys_onceb_ok libc0). vm_compute. reflexivity.
    + intros w Hw. apply elem_of_cons in Hw as [Hw|Hw]; [discriminate|]. apply elem_of_cons in Hw as [Hw|Hw]; [discriminate|]. by apply elem_of_nil in Hw.
    + vm_compute. reflexivity.
Qed.
