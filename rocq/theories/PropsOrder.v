(** * Properties of the order in which options are given *)
From Coq Require Import Lia.
From Verif Require Import Macros Api SpecGrammar SpecAfter SpecStructure SpecValues SpecMemory SpecContents SpecSafe SpecCollections
  SpecMacros SpecReuse SpecOrder StructProofs GrammarProofs ExchangeProofs OrderLists ExLib ExGrammar ExAfter ExMemory PropsMessages PropsCollections PropsRefused PropsAccept.

(** ** C73 *)

(** Two command lines that ask for the same things in another order have exactly the same result:
    the same status and the same context, to the last pointer.  Exchanged are values of different
    options, at least one of which is not a list or map; the items of the first line are all
    carried out. *)
Theorem C73_reordered `{Libc} a argv argv' its its' a1 : subs_present (decls a) -> is_Some (decls a !! a_root a) ->
  reads (decls a) (a_root a) 0 false argv its -> reads (decls a) (a_root a) 0 false argv' its' ->
  reordered (decls a) its its' -> perform a its = Ok (0, a1) -> argus_parse a argv' = argus_parse a argv.
Proof. exact (reordered_parse a argv argv' its its' a1). Qed.
Print Assumptions C73_reordered.
(** Lists and maps: what is read depends only on the texts given to that option, in their order,
    and not on anything else on the line.  (Lists of numbers with a fraction that are sorted, and
    maps sorted by value, may arrange equal numbers as qsort likes.) *)
Theorem C73_lists `{Libc} a argv1 argv2 its1 its2 a1 a2 p1 p2 t i d f b k : parsed a argv1 its1 a1 -> parsed a argv2 its2 a2 ->
  shows a a1 p1 t i d f -> shows a a2 p2 t i d f -> array_handler f = Some (b, k) ->
  (N.testbit (d_flags d) 9 = true -> k = EText \/ k = EInt) -> texts t i its1 = texts t i its2 ->
  exists c, array_reads a1 p1 c /\ array_reads a2 p2 c.
Proof. exact (list_own_texts a argv1 argv2 its1 its2 a1 a2 p1 p2 t i d f b k). Qed.
Print Assumptions C73_lists.
Theorem C73_maps `{Libc} a argv1 argv2 its1 its2 a1 a2 p1 p2 t i d f k : parsed a argv1 its1 a1 -> parsed a argv2 its2 a2 ->
  shows a a1 p1 t i d f -> shows a a2 p2 t i d f -> map_handler f = Some k ->
  (N.testbit (d_flags d) 11 = true -> N.testbit (d_flags d) 12 = true) -> texts t i its1 = texts t i its2 ->
  exists c, map_reads a1 p1 c /\ map_reads a2 p2 c.
Proof. exact (map_own_texts a argv1 argv2 its1 its2 a1 a2 p1 p2 t i d f k). Qed.
Print Assumptions C73_maps.

(** ** Examples *)

(** A text and a list of numbers change places. *)
Example C73_reordered_example :
  argus_parse (H := libc0) refused_ctx [$"-a"; $"1-3"; $"-m"; $"a@b"; $"run"; $"5"] =
  argus_parse (H := libc0) refused_ctx [$"-m"; $"a@b"; $"-a"; $"1-3"; $"run"; $"5"].
Proof.
  apply (C73_reordered (H := libc0) refused_ctx [$"-m"; $"a@b"; $"-a"; $"1-3"; $"run"; $"5"] _ good swapped (of_run libc0 refused_ctx good)).
  - apply refused_fresh.
  - apply refused_fresh.
  - exact good_reads.
  - apply reads_plan; [exact refused_fresh|vm_compute; reflexivity].
  - eapply ro_more; [|apply ro_same].
    apply (ex_swap (decls refused_ctx) [] 0 1 (Some ($"a@b")) 0 2 (Some ($"1-3")) [Enter 0 3; Call 1 2 (Some ($"5"))]); [done|left].
    exists R0, mail, HString. split_and!; [reflexivity|reflexivity|reflexivity|exact I|]. by intros [|].
  - vm_compute. reflexivity.
Qed.
(** The list of tags among other options, and the same texts elsewhere on another line. *)
Definition line1 : list cstr := [$"-t"; $"b,a"; $"-s"; $"x"; $"-D"; $"k=1"; $"-t"; $"c"; $"-D"; $"j=2,k=3"; $"file"].
Definition line2 : list cstr := [$"-D"; $"k=1"; $"-D"; $"j=2,k=3"; $"-r"; $"7"; $"-t"; $"b,a"; $"--tags=c"; $"file"].
Lemma line1_parsed : parsed (H := libc0) lists_ctx line1 (all_items libc0 lists_ctx line1) (ran libc0 lists_ctx line1).
Proof. apply (lists_parsed []); vm_compute; reflexivity. Qed.
Lemma line2_parsed : parsed (H := libc0) lists_ctx line2 (all_items libc0 lists_ctx line2) (ran libc0 lists_ctx line2).
Proof. apply (lists_parsed []); vm_compute; reflexivity. Qed.
Example C73_lists_example : exists c, array_reads (ran libc0 lists_ctx line1) (Some ($"tags")) c /\
  array_reads (ran libc0 lists_ctx line2) (Some ($"tags")) c.
Proof.
  eapply (C73_lists (H := libc0) lists_ctx line1 line2 _ _ _ _ (Some ($"tags")) (Some ($"tags")) 0 1 (decl_at 1) HArrayString);
    [exact line1_parsed|exact line2_parsed|shown|shown|reflexivity|discriminate|vm_compute; reflexivity].
Qed.
Example C73_maps_example : exists c, map_reads (ran libc0 lists_ctx line1) (Some ($"define")) c /\
  map_reads (ran libc0 lists_ctx line2) (Some ($"define")) c.
Proof.
  eapply (C73_maps (H := libc0) lists_ctx line1 line2 _ _ _ _ (Some ($"define")) (Some ($"define")) 0 7 (decl_at 7) HMapString);
    [exact line1_parsed|exact line2_parsed|shown|shown|reflexivity|discriminate|vm_compute; reflexivity].
Qed.
