(** * Property C76: which lists and maps can be given, and that they are read back *)
From Coq Require Import Lia.
From Verif Require Import Macros Api SpecGrammar SpecAfter SpecStructure SpecValues SpecMemory SpecContents SpecSafe SpecCollections
  SpecMessages SpecRefused CollProofs CollFacts RangeProofs SpecListText ListTextProofs ExLib ExAfter ExMemory.

(** A list of texts, joined by commas and given to an option, is read back as that list. *)
Theorem C76_texts `{Libc} a argv its a' p t i d ws :
  parsed a argv its a' -> shows a a' p t i d HArrayString ->
  N.testbit (d_flags d) 9 = false -> N.testbit (d_flags d) 10 = false ->
  texts t i its = [joined ws] -> ws <> [] -> Forall plain_element ws ->
  array_reads a' p (map Text ws).
Proof.
  intros HP HS H9 H10 Ht Hne Hws. rewrite <- (app_nil_r ws). change (ws ++ []) with (concat [ws]).
  apply (string_array a argv its a' HP p t i d HArrayString HS [ws] eq_refl H9 H10).
  rewrite Ht. constructor; [by apply elements_joined|constructor].
Qed.
Print Assumptions C76_texts.
(** The same for integers. *)
Theorem C76_integers `{Libc} a argv its a' p t i d ns :
  parsed a argv its a' -> shows a a' p t i d HArrayInt ->
  N.testbit (d_flags d) 9 = false -> N.testbit (d_flags d) 10 = false ->
  texts t i its = [joined (map decimal_text ns)] -> ns <> [] -> Forall in_32_bits ns ->
  ints_read a' p ns.
Proof.
  intros HP HS H9 H10 Ht Hne Hns. rewrite <- (app_nil_r ns). change (ns ++ []) with (concat [ns]).
  apply (ranges_read a argv its a' p t i d [ns] HP HS H9 H10).
  rewrite Ht. constructor; [by apply int_texts_joined|constructor].
Qed.
Print Assumptions C76_integers.
(** The same for maps with different keys, whatever the kind of values and the order asked for. *)
Theorem C76_pairs `{Libc} a argv its a' p t i d f k kvs es :
  parsed a argv its a' -> shows a a' p t i d f -> map_handler f = Some k -> N.testbit (d_flags d) 13 = false ->
  texts t i its = [joined (map pair_written kvs)] -> kvs <> [] -> Forall plain_pair kvs -> NoDup (map fst kvs) ->
  Forall2 (fun kv e => map_value f (snd kv) = Some e) kvs es ->
  map_reads a' p (zip (map fst kvs) es).
Proof. exact (map_written a argv its a' p t i d f k kvs es). Qed.
Print Assumptions C76_pairs.
(** These texts are taken by the option, if its validators pass them. *)
Theorem C76_taken `{Libc} d :
  (d_handler d = Some HArrayString -> forall ws, passes d (Some (joined ws)) -> value_taken d (Some (joined ws))) /\
  (d_handler d = Some HArrayInt -> forall ns, ns <> [] -> Forall in_32_bits ns ->
     passes d (Some (joined (map decimal_text ns))) -> value_taken d (Some (joined (map decimal_text ns)))) /\
  (forall f valid n e, d_handler d = Some f -> values_of f valid n e -> forall kvs, kvs <> [] -> Forall plain_pair kvs ->
     Forall (fun kv => valid (snd kv)) kvs ->
     passes d (Some (joined (map pair_written kvs))) -> value_taken d (Some (joined (map pair_written kvs)))).
Proof.
  split; [intros Hh ws; exact (taken_texts d _ Hh)|]. split; [intros Hh ns; exact (taken_ints d ns Hh)|].
  intros f valid n e Hh Hv kvs. exact (taken_pairs d f valid n e kvs Hh Hv).
Qed.
Print Assumptions C76_taken.
(** No other lists of texts can be given: in one text, by repeating the option, and as a pair. *)
Theorem C76_which (ws : list cstr) :
  ((exists v, elements v ws) <-> (exists w, ws = [w] /\ comma_free w) \/ Forall plain_element ws) /\
  ((exists vs wss, Forall2 elements vs wss /\ concat wss = ws) <-> Forall comma_free ws).
Proof. exact (conj (one_text ws) (some_texts ws)). Qed.
Print Assumptions C76_which.
Theorem C76_which_pairs `{Libc} k x : (exists v ps, pairs_text HMapString v ps /\ (k, Text x) ∈ ps) <-> plain_pair (k, x).
Proof. exact (which_pairs k x). Qed.
Print Assumptions C76_which_pairs.

(** --tags "x y,--z", --ranges 5,-2147483648,-7 and --keys b=-1,a=9223372036854775807 *)
Definition words1 : list cstr := [$"x y"; $"--z"].
Definition numbers1 : list Z := [5; - 2 ^ 31; -7].
Definition pairs1 : list (cstr * cstr) := [($"b", $"-1"); ($"a", $"9223372036854775807")].
Definition line76 : list cstr :=
  [$"--tags"; joined words1; $"--ranges=" ++ joined (map decimal_text numbers1); $"-k"; joined (map pair_written pairs1); $"f"].
Definition its76 : list item := all_items libc0 lists_ctx line76.
Definition fin76 : argus := ran libc0 lists_ctx line76.
Definition decl76 (i : nat) : decl := decl_of (opt_at lists_ctx 0 i).
Ltac shown76 := split; [vm_compute; reflexivity|]; eexists; split; [eexists; split; reflexivity|split; reflexivity].
Lemma parsed76 : parsed (H := libc0) lists_ctx line76 its76 fin76.
Proof. apply (lists_parsed []); vm_compute; reflexivity. Qed.
Lemma free_dec (c : ascii) (w : cstr) : bool_decide (c ∈ w) = false -> c ∉ w.
Proof. apply bool_decide_eq_false. Qed.
Example C76_example :
  joined (map decimal_text numbers1) = $"5,-2147483648,-7" /\ joined (map pair_written pairs1) = $"b=-1,a=9223372036854775807" /\
  array_reads fin76 (Some ($"tags")) (map Text words1) /\ ints_read fin76 (Some ($"ranges")) numbers1 /\
  map_reads fin76 (Some ($"keys")) [($"b", Num W8 (2 ^ 64 - 1)); ($"a", Num W8 (2 ^ 63 - 1))].
Proof.
  split; [vm_compute; reflexivity|]. split; [vm_compute; reflexivity|]. split; [|split].
  - apply (C76_texts (H := libc0) lists_ctx line76 its76 fin76 _ 0 1 (decl76 1) words1 parsed76);
      [shown76|reflexivity|reflexivity|vm_compute; reflexivity|discriminate|].
    constructor; [|constructor; [|constructor]]; (split; [discriminate|apply free_dec; reflexivity]).
  - apply (C76_integers (H := libc0) lists_ctx line76 its76 fin76 _ 0 3 (decl76 3) numbers1 parsed76);
      [shown76|reflexivity|reflexivity|vm_compute; reflexivity|discriminate|].
    constructor; [|constructor; [|constructor; [|constructor]]]; unfold in_32_bits; lia.
  - apply (C76_pairs (H := libc0) lists_ctx line76 its76 fin76 _ 0 8 (decl76 8) HMapInt ELong pairs1
      [Num W8 (2 ^ 64 - 1); Num W8 (2 ^ 63 - 1)] parsed76);
      [shown76|reflexivity|reflexivity|vm_compute; reflexivity|discriminate| | |].
    + constructor; [|constructor; [|constructor]]; (split; [apply free_dec; reflexivity|split; apply free_dec; reflexivity]).
    + apply NoDup_cons. split; [apply (bool_decide_eq_false_1 _); reflexivity|]. apply NoDup_singleton.
    + constructor; [vm_compute; reflexivity|constructor; [vm_compute; reflexivity|constructor]].
Qed.
(** A text with a comma is no element of any list; the empty text is, but only alone. *)
Example C76_which_example :
  (~ exists vs wss, Forall2 elements vs wss /\ concat wss = [$"a,b"]) /\
  (~ exists v, elements v [[]; $"a"]) /\ (exists v, elements v [[]]) /\
  (exists vs wss, Forall2 elements vs wss /\ concat wss = [[]; $"a"]).
Proof.
  split; [|split; [|split]].
  - intros E. apply (proj2 (C76_which _)) in E. inversion E as [|? ? Hx]; subst. apply Hx. apply (bool_decide_eq_true_1 _). reflexivity.
  - intros E. apply (proj1 (C76_which _)) in E as [(w & [=] & _)|E]. inversion E as [|? ? [Hx _]]; subst. done.
  - apply (proj1 (C76_which _)). left. exists []. split; [done|]. apply free_dec. reflexivity.
  - apply (proj2 (C76_which _)). constructor; [apply free_dec; reflexivity|constructor; [apply free_dec; reflexivity|constructor]].
Qed.
Example C76_which_pairs_example :
  (exists v ps, pairs_text (H := libc0) HMapString v ps /\ ($"a", Text ($"b=c")) ∈ ps) /\
  ~ exists v ps, pairs_text (H := libc0) HMapString v ps /\ ($"a=b", Text ($"c")) ∈ ps.
Proof.
  split.
  - apply C76_which_pairs. split; [apply free_dec; reflexivity|split; apply free_dec; reflexivity].
  - intros E. apply C76_which_pairs in E as (_ & Hx & _). apply Hx. apply (bool_decide_eq_true_1 _). reflexivity.
Qed.
Example C76_taken_example : value_taken (H := libc0) (decl76 3) (Some ($"5,-2147483648,-7")).
Proof.
  change ($"5,-2147483648,-7") with (joined (map decimal_text numbers1)).
  apply (proj1 (proj2 (C76_taken (H := libc0) (decl76 3)))); [reflexivity|discriminate| |].
  - constructor; [|constructor; [|constructor; [|constructor]]]; unfold in_32_bits; lia.
  - intros e He. vm_compute in He. inversion He.
Qed.
