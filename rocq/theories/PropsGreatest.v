(** * Ranges that reach the greatest int: more of property C18 *)
From Coq Require Import Lia.
From Verif Require Import Macros Api Validate SpecGrammar SpecAfter SpecStructure SpecMemory SpecContents SpecSafe SpecCollections
  SpecMacros MacroProofs SafeFacts SafeWhole SpecTold SpecMessages SpecRefused SpecLeak LeakProofs GreatestProofs ExLib ExAfter ExStructure ExMemory PropsCollections
  PropsTold PropsMessages PropsRefused PropsLeak.
From Verif Require Import SpecMemory SpecAfter.

(** What [C18_ranges] leaves out: whenever the command line gets as far as a list of integers with a
    part that contains 2147483647, alone or as the end of a range, the parse is undefined.  So of the
    numbers that an int can hold this is the only one that cannot be given. *)
Theorem C18_greatest `{Libc} a argv its t i v its2 a1 T d ws1 w ws2 nss ns :
  accepted a -> no_strays (decls a) (a_root a) -> ready a -> library_only (decls a) -> qsort_sorts ->
  reads (decls a) (a_root a) 0 false argv (its ++ Call t i (Some v) :: its2) ->
  harmless_items a its -> perform a its = Ok (0, a1) ->
  decls a !! t = Some T -> T !! i = Some d -> d_handler d = Some HArrayInt -> passes d (Some v) ->
  elements v (ws1 ++ w :: ws2) -> Forall2 int_part ws1 nss -> Forall (fun ns => 2147483647 ∉ ns) nss ->
  int_part w ns -> 2147483647 ∈ ns ->
  argus_parse a argv = UB SignedOverflow.
Proof. exact (greatest a argv its t i v its2 a1 T d ws1 w ws2 nss ns). Qed.
Print Assumptions C18_greatest.

(** "-t a -r 5,1:2147483647,x f" *)
Example C18_greatest_example :
  argus_parse (H := libc0) lists_ctx [$"-t"; $"a"; $"-r"; $"5,1:2147483647,x"; $"f"] = UB SignedOverflow.
Proof.
  set (v := $"5,1:2147483647,x"). set (argv := [$"-t"; $"a"; $"-r"; v; $"f"]).
  eapply (C18_greatest (H := libc0) lists_ctx argv [Call 0 1 (Some ($"a"))] 0 3 v (drop 2 (plan_of lists_ctx argv)) _ _ _
    [$"5"] ($"1:2147483647") [$"x"] [[5]] (from_to (Z.min 1 2147483647) (Z.max 1 2147483647))
    (lists_accepted []) lists_strays lists_ready lists_library (env_sorts [])).
  - apply reads_plan; [exact lists_fresh|vm_compute; reflexivity].
  - apply (items_harmlessb libc0). vm_compute. reflexivity.
  - vm_compute. reflexivity.
  - reflexivity.
  - reflexivity.
  - reflexivity.
  - intros e He. vm_compute in He. by apply elem_of_nil in He.
  - exact (words_elements v).
  - constructor; [|constructor]. apply (ip_number 5). unfold in_32_bits. lia.
  - constructor; [|constructor]. intros Hi. apply elem_of_list_singleton in Hi. discriminate.
  - apply (ip_range 1 2147483647 ":"); [unfold in_32_bits; lia..|by right].
  - unfold from_to. apply elem_of_list_In, in_map_iff. exists (Z.to_nat 2147483646). split; [lia|]. apply in_seq. lia.
Qed.
