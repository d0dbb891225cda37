(** * Properties of array and map options: C13, C14, C15, C16, C18, C31, C32 *)
From Coq Require Import Lia.
From Verif Require Import Macros Api SpecGrammar SpecAfter SpecStructure SpecValues SpecMemory SpecContents SpecSafe SpecCollections
  SpecLinks SpecMacros CollProofs CollFacts LinkProofs RangeProofs RangeFlags ExLib ExAfter ExMemory.

(** The run used by the examples. *)
Definition line : list cstr :=
  [$"-t"; $"b,a"; $"-s"; $"b,a"; $"-t"; $"c"; $"--sorted=aa"; $"-r"; $"5-3,-2,7:8"; $"-u"; $"3,1,3"; $"-u"; $"1,2";
   $"-b"; $"3,1"; $"-b"; $"2,3"; $"-D"; $"k=1,j=2"; $"-D"; $"k=3"; $"-k"; $"b=1,a=2"; $"-v"; $"x=5,y=5,z=6";
   $"-w"; $"x=9,y=2"; $"-e"; $"a=Yes,b=off"; $"-g"; $"1,1.5,1"; $"-f"; $"2.5,1"; $"file"].
Definition its : list item := all_items libc0 lists_ctx line.
Definition fin : argus := ran libc0 lists_ctx line.
Lemma line_parsed : parsed (H := libc0) lists_ctx line its fin.
Proof. apply (lists_parsed []); vm_compute; reflexivity. Qed.
(** A numbered entry of the table, found by its name. *)
Definition decl_at (i : nat) : decl := decl_of (opt_at lists_ctx 0 i).
Ltac shown := split; [vm_compute; reflexivity|]; eexists; split; [eexists; split; reflexivity|split; reflexivity].

(** The results of calls, for the examples. *)
Definition got (r : res (uval * argus)) : uval := match r with Ok (x, _) => x | UB _ => Indet end.
Definition map_it_of (r : res map_it) : map_it := match r with Ok it => it | UB _ => MapIt Indet 0 0 Indet Indet end.
Definition map_next_of (h : heap) (it : map_it) : map_it :=
  match argus_map_next h (Some it) with Ok (_, Some it') => it' | _ => it end.

(** ** C13 *)
Theorem C13_accumulates `{Libc} a argv its a' p t i d f b k :
  parsed a argv its a' -> shows a a' p t i d f -> array_handler f = Some (b, k) ->
  N.testbit (d_flags d) 9 = false -> N.testbit (d_flags d) 10 = false ->
  exists ess, Forall2 (yields f) (texts t i its) ess /\ array_reads a' p (concat ess).
Proof. exact (fun HP HS => accumulated a argv its a' HP p t i d f HS b k). Qed.
Print Assumptions C13_accumulates.
(** For strings the elements are the parts between commas. *)
Theorem C13_strings `{Libc} a argv its a' p t i d wss :
  parsed a argv its a' -> shows a a' p t i d HArrayString ->
  N.testbit (d_flags d) 9 = false -> N.testbit (d_flags d) 10 = false ->
  Forall2 elements (texts t i its) wss -> array_reads a' p (map Text (concat wss)).
Proof. exact (fun HP HS => string_array a argv its a' HP p t i d HArrayString HS wss eq_refl). Qed.
Print Assumptions C13_strings.
Example C13_example : texts 0 1 its = [$"b,a"; $"c"] /\ array_reads fin (Some ($"tags")) [Text ($"b"); Text ($"a"); Text ($"c")].
Proof.
  split; [vm_compute; reflexivity|].
  apply (C13_strings (H := libc0) lists_ctx line its fin (Some ($"tags")) 0 1 (decl_at 1) [[$"b"; $"a"]; [$"c"]] line_parsed);
    [shown|reflexivity|reflexivity|].
  change (texts 0 1 its) with [$"b,a"; $"c"].
  constructor; [exact (words_elements ($"b,a"))|constructor; [exact (words_elements ($"c"))|constructor]].
Qed.

(** ** C14 *)
Theorem C14_sorted `{Libc} a argv its a' p t i d f b k :
  parsed a argv its a' -> shows a a' p t i d f -> array_handler f = Some (b, k) ->
  N.testbit (d_flags d) 9 = true -> N.testbit (d_flags d) 10 = false ->
  exists ess c, Forall2 (yields f) (texts t i its) ess /\ array_reads a' p c /\
    Permutation (concat ess) c /\ in_sequence (precedes k) c.
Proof. exact (fun HP HS => sorted_array a argv its a' HP p t i d f HS b k). Qed.
Print Assumptions C14_sorted.
Theorem C14_unique `{Libc} a argv its a' p t i d f b k :
  parsed a argv its a' -> shows a a' p t i d f -> array_handler f = Some (b, k) -> k = EText \/ k = EInt ->
  N.testbit (d_flags d) 9 = false -> N.testbit (d_flags d) 10 = true ->
  exists ess c, Forall2 (yields f) (texts t i its) ess /\ array_reads a' p c /\ first_appearances (concat ess) c.
Proof. exact (fun HP HS => unique_array a argv its a' HP p t i d f HS b k). Qed.
Print Assumptions C14_unique.
Theorem C14_sorted_unique `{Libc} a argv its a' p t i d f b k :
  parsed a argv its a' -> shows a a' p t i d f -> array_handler f = Some (b, k) -> k = EText \/ k = EInt ->
  N.testbit (d_flags d) 9 = true -> N.testbit (d_flags d) 10 = true ->
  exists ess c, Forall2 (yields f) (texts t i its) ess /\ array_reads a' p c /\ (forall x, x ∈ c <-> x ∈ concat ess) /\
    (forall j1 j2 x y, (j1 < j2)%nat -> c !! j1 = Some x -> c !! j2 = Some y -> precedes k x y).
Proof. exact (fun HP HS => sorted_unique_array a argv its a' HP p t i d f HS b k). Qed.
Print Assumptions C14_sorted_unique.
(** Lists of doubles.  Without SORTED: going through the given numbers in order, one is dropped
    exactly when it differs by less than 0.0000001 from one kept before; so each is kept or near a
    kept one. *)
Theorem C14_floats `{Libc} a argv its a' p t i d f b :
  parsed a argv its a' -> shows a a' p t i d f -> array_handler f = Some (b, EFloat) ->
  N.testbit (d_flags d) 9 = false -> N.testbit (d_flags d) 10 = true ->
  exists ess c, Forall2 (yields f) (texts t i its) ess /\ array_reads a' p c /\
    c = firsts (fun x y => fclose (bits_of x) (bits_of y)) [] (concat ess) /\
    forall x, x ∈ concat ess -> x ∈ c \/ exists y, y ∈ c /\ near x y.
Proof. exact (fun HP HS => floats_firsts a argv its a' HP p t i d f HS b). Qed.
Print Assumptions C14_floats.
(** With or without SORTED: what stays was given, no two that stay are near, with SORTED they are
    in order, and each given number is linked to one that stays by given numbers, each near the
    next. *)
Theorem C14_floats_linked `{Libc} a argv its a' p t i d f b :
  parsed a argv its a' -> shows a a' p t i d f -> array_handler f = Some (b, EFloat) ->
  N.testbit (d_flags d) 10 = true ->
  exists ess c, Forall2 (yields f) (texts t i its) ess /\ array_reads a' p c /\
    (forall x, x ∈ c -> x ∈ concat ess) /\
    (forall j1 j2 x y, (j1 < j2)%nat -> c !! j1 = Some x -> c !! j2 = Some y -> ~ near y x) /\
    (N.testbit (d_flags d) 9 = true -> in_sequence (precedes EFloat) c) /\
    (forall x, x ∈ concat ess -> exists y, y ∈ c /\ linked (concat ess) x y).
Proof. exact (fun HP HS => floats_linked a argv its a' HP p t i d f HS b). Qed.
Print Assumptions C14_floats_linked.
Example C14_floats_example :
  texts 0 14 its = [$"1,1.5,1"] /\
  (exists ess c, Forall2 (yields (H := libc0) HArrayFloat) [$"1,1.5,1"] ess /\ array_reads fin (Some ($"gauges")) c /\
    c = firsts (fun x y => fclose (bits_of x) (bits_of y)) [] (concat ess) /\
    forall x, x ∈ concat ess -> x ∈ c \/ exists y, y ∈ c /\ near x y) /\
  exists ess c, Forall2 (yields (H := libc0) HArrayFloat) [$"1,1.5,1"] ess /\ array_reads fin (Some ($"gauges")) c /\
    forall x, x ∈ concat ess -> exists y, y ∈ c /\ linked (concat ess) x y.
Proof.
  split; [vm_compute; reflexivity|]. split.
  - apply (C14_floats (H := libc0) lists_ctx line its fin (Some ($"gauges")) 0 14 (decl_at 14) HArrayFloat true line_parsed);
      [shown|reflexivity|reflexivity|reflexivity].
  - destruct (C14_floats_linked (H := libc0) lists_ctx line its fin (Some ($"gauges")) 0 14 (decl_at 14) HArrayFloat true line_parsed)
      as (ess & c & H1 & H2 & _ & _ & _ & H3); [shown|reflexivity|reflexivity|]. exists ess, c. done.
Qed.
Example C14_example :
  (texts 0 2 its = [$"b,a"; $"aa"] /\ exists ess c, Forall2 (yields (H := libc0) HArrayString) [$"b,a"; $"aa"] ess /\
     array_reads fin (Some ($"sorted")) c /\ Permutation (concat ess) c /\ in_sequence (precedes EText) c) /\
  (texts 0 4 its = [$"3,1,3"; $"1,2"] /\ exists ess c, Forall2 (yields (H := libc0) HArrayInt) [$"3,1,3"; $"1,2"] ess /\
     array_reads fin (Some ($"unique")) c /\ first_appearances (concat ess) c) /\
  (texts 0 5 its = [$"3,1"; $"2,3"] /\ argus_count fin (Some ($"both")) = Ok 3%nat) /\
  (texts 0 14 its = [$"1,1.5,1"] /\ argus_count fin (Some ($"gauges")) = Ok 2%nat).
Proof.
  split; [|split; [|split; split; vm_compute; reflexivity]].
  - split; [vm_compute; reflexivity|].
    apply (C14_sorted (H := libc0) lists_ctx line its fin (Some ($"sorted")) 0 2 (decl_at 2) HArrayString true EText line_parsed);
      [shown|reflexivity|reflexivity|reflexivity].
  - split; [vm_compute; reflexivity|].
    apply (C14_unique (H := libc0) lists_ctx line its fin (Some ($"unique")) 0 4 (decl_at 4) HArrayInt true EInt line_parsed);
      [shown|reflexivity|by right|reflexivity|reflexivity].
Qed.
Example C14_example_both : exists ess c, Forall2 (yields (H := libc0) HArrayInt) [$"3,1"; $"2,3"] ess /\
    array_reads fin (Some ($"both")) c /\ (forall x, x ∈ c <-> x ∈ concat ess) /\
    (forall j1 j2 x y, (j1 < j2)%nat -> c !! j1 = Some x -> c !! j2 = Some y -> precedes EInt x y).
Proof.
  apply (C14_sorted_unique (H := libc0) lists_ctx line its fin (Some ($"both")) 0 5 (decl_at 5) HArrayInt true EInt line_parsed);
    [shown|reflexivity|by right|reflexivity|reflexivity].
Qed.
(** strtof of a few small numbers. *)
Definition libc_small : Libc := {|
  getenv := fun _ => None;
  strtod := strtod0;
  strtof := fun s => if strcmp s ($"0.00000001") =? 0 then 4487126258294980608
    else if strcmp s ($"0.00000009") =? 0 then 4501392635876868096
    else if strcmp s ($"0.00000015") =? 0 then 4504762867723010048 else 0;
  qsort := @insertion_sort; regex_enabled := true;
  regex_match := fun p s => if strcmp p s =? 0 then RxMatch else RxNoMatch;
  fmt_f := fun _ => []; fmt_2g := fun _ => [];
|}.
(** Two different numbers, 0 and 0.00000001, of which the second is dropped. *)
Theorem C14_unique_float_refuted : exists argv a', argv = [$"-g"; $"0,0.00000001"; $"f"] /\
  strtof (Libc := libc_small) ($"0") <> strtof (Libc := libc_small) ($"0.00000001") /\
  argus_parse (H := libc_small) lists_ctx argv = Ok (Returned 0, a') /\ argus_count a' (Some ($"gauges")) = Ok 1%nat.
Proof.
  exists [$"-g"; $"0,0.00000001"; $"f"], (ran libc_small lists_ctx [$"-g"; $"0,0.00000001"; $"f"]).
  split; [reflexivity|]. split; [vm_compute; discriminate|]. split; vm_compute; reflexivity.
Qed.
Print Assumptions C14_unique_float_refuted.
(** With SORTED as well a given number can be lost although nothing near it stays: 0.00000015 is
    dropped for 0.00000009, and that later for 0. *)
Definition drift_tables : list (list opt) := [[HELP_OPTION;
  OPTION_ARRAY_FLOAT "g" (Some ($"gauges")) [hlp; FLAGS (N.lor FLAG_SORTED FLAG_UNIQUE)]]].
Definition drift_ctx : argus := make_argus drift_tables 0 None.
Theorem C14_drift_refuted : exists argv a', argv = [$"-g"; $"0.00000015,0.00000009"; $"-g"; $"0"] /\
  accepted (H := libc_small) drift_ctx /\
  argus_parse (H := libc_small) drift_ctx argv = Ok (Returned 0, a') /\ argus_count a' (Some ($"gauges")) = Ok 1%nat /\
  argus_array_get a' (Some ($"gauges")) 0 = Ok (of_float (strtof (Libc := libc_small) ($"0")), a') /\
  fclose (strtof (Libc := libc_small) ($"0.00000015")) (strtof (Libc := libc_small) ($"0")) = false.
Proof.
  set (argv := [$"-g"; $"0.00000015,0.00000009"; $"-g"; $"0"]). exists argv, (ran libc_small drift_ctx argv).
  split; [reflexivity|]. split; [exists 3%nat, drift_tables, 0%nat, None; split; [vm_compute; reflexivity|reflexivity]|].
  split_and!; vm_compute; reflexivity.
Qed.
Print Assumptions C14_drift_refuted.

(** ** C15 *)
Theorem C15_finite_map `{Libc} a argv its a' p t i d f k :
  parsed a argv its a' -> shows a a' p t i d f -> map_handler f = Some k -> N.testbit (d_flags d) 13 = false ->
  exists pss c, Forall2 (pairs_text f) (texts t i its) pss /\ map_reads a' p c /\ NoDup (map fst c) /\
    (forall key e, (key, e) ∈ c <-> last_value key (concat pss) = Some e) /\
    (N.testbit (d_flags d) 12 = false -> N.testbit (d_flags d) 11 = false ->
       first_appearances (map fst (concat pss)) (map fst c)) /\
    (N.testbit (d_flags d) 12 = true -> in_sequence text_before (map fst c)) /\
    (N.testbit (d_flags d) 12 = false -> N.testbit (d_flags d) 11 = true -> in_sequence (precedes k) (map snd c)).
Proof. exact (fun HP HS => finite_map a argv its a' HP p t i d f HS k). Qed.
Print Assumptions C15_finite_map.
(** What the texts of values mean. *)
Theorem C15_bool_value `{Libc} v e : map_value HMapBool v = Some e <-> exists b, bool_word v b /\ e = Num W1 (Z.b2z b).
Proof. exact (bool_value v e). Qed.
Print Assumptions C15_bool_value.
Theorem C15_int_value `{Libc} n : - 2 ^ 63 <= n < 2 ^ 63 -> map_value HMapInt (decimal_text n) = Some (Num W8 (n mod two64)).
Proof. exact (int_value n). Qed.
Print Assumptions C15_int_value.
Example C15_example : texts 0 7 its = [$"k=1,j=2"; $"k=3"] /\
  (exists pss c, Forall2 (pairs_text (H := libc0) HMapString) [$"k=1,j=2"; $"k=3"] pss /\
    map_reads fin (Some ($"define")) c /\ NoDup (map fst c) /\
    (forall key e, (key, e) ∈ c <-> last_value key (concat pss) = Some e) /\
    first_appearances (map fst (concat pss)) (map fst c)) /\
  (exists x, argus_map_get fin (Some ($"define")) ($"k") = Ok (x, fin) /\ holds (a_heap fin) x (Text ($"3"))) /\
  (exists x, argus_map_get fin (Some ($"keys")) ($"a") = Ok (x, fin) /\ as_int64 x = Ok 2) /\
  (exists x, argus_map_get fin (Some ($"enable")) ($"a") = Ok (x, fin) /\ as_bool x = Ok true) /\
  argus_map_get fin (Some ($"define")) ($"z") = Ok (VNull, set_err fin 25).
Proof.
  split; [vm_compute; reflexivity|]. split.
  { destruct (C15_finite_map (H := libc0) lists_ctx line its fin (Some ($"define")) 0 7 (decl_at 7) HMapString EText line_parsed)
      as (pss & c & H1 & H2 & H3 & H4 & H5 & _); [shown|reflexivity|reflexivity|]. exists pss, c.
    split; [exact H1|]. split; [exact H2|]. split; [exact H3|]. split; [exact H4|]. apply H5; reflexivity. }
  split; [exists (got (argus_map_get fin (Some ($"define")) ($"k"))); split; [vm_compute; reflexivity|eexists; split; vm_compute; reflexivity]|].
  split; [exists (got (argus_map_get fin (Some ($"keys")) ($"a"))); split; vm_compute; reflexivity|].
  split; [exists (got (argus_map_get fin (Some ($"enable")) ($"a"))); split; vm_compute; reflexivity|]. vm_compute; reflexivity.
Qed.

(** ** C16 *)
Theorem C16_unique_values `{Libc} a argv its a' p t i d f k :
  parsed a argv its a' -> shows a a' p t i d f -> map_handler f = Some k -> N.testbit (d_flags d) 13 = true -> k <> EFloat ->
  exists pss c, Forall2 (pairs_text f) (texts t i its) pss /\ map_reads a' p c /\ NoDup (map fst c) /\
    NoDup (map snd c) /\ (forall q, q ∈ c -> q ∈ concat pss).
Proof. exact (fun HP HS => unique_values a argv its a' HP p t i d f HS k). Qed.
Print Assumptions C16_unique_values.
(** Integers are ordered by their low 32 bits (see the refutation), other values as such. *)
Theorem C16_sorted_values_partial `{Libc} a argv its a' p t i d f k :
  parsed a argv its a' -> shows a a' p t i d f -> map_handler f = Some k -> N.testbit (d_flags d) 13 = false ->
  N.testbit (d_flags d) 12 = false -> N.testbit (d_flags d) 11 = true ->
  exists pss c, Forall2 (pairs_text f) (texts t i its) pss /\ map_reads a' p c /\
    (forall key e, (key, e) ∈ c <-> last_value key (concat pss) = Some e) /\ in_sequence (precedes k) (map snd c).
Proof.
  intros HP HS Hk H13 H12 H11.
  destruct (finite_map a argv its a' HP p t i d f HS k Hk H13) as (pss & c & H1 & H2 & _ & H4 & _ & _ & H7).
  exists pss, c. exact (conj H1 (conj H2 (conj H4 (H7 H12 H11)))).
Qed.
Print Assumptions C16_sorted_values_partial.
Example C16_example :
  (texts 0 9 its = [$"x=5,y=5,z=6"] /\ exists pss c, Forall2 (pairs_text (H := libc0) HMapInt) [$"x=5,y=5,z=6"] pss /\
     map_reads fin (Some ($"values")) c /\ NoDup (map fst c) /\ NoDup (map snd c) /\ (forall q, q ∈ c -> q ∈ concat pss)) /\
  argus_count fin (Some ($"values")) = Ok 2%nat /\
  (texts 0 10 its = [$"x=9,y=2"] /\ exists pss c, Forall2 (pairs_text (H := libc0) HMapInt) [$"x=9,y=2"] pss /\
     map_reads fin (Some ($"weights")) c /\ (forall key e, (key, e) ∈ c <-> last_value key (concat pss) = Some e) /\
     in_sequence (precedes ELong) (map snd c)).
Proof.
  split; [|split].
  - split; [vm_compute; reflexivity|].
    apply (C16_unique_values (H := libc0) lists_ctx line its fin (Some ($"values")) 0 9 (decl_at 9) HMapInt ELong line_parsed);
      [shown|reflexivity|reflexivity|discriminate].
  - vm_compute; reflexivity.
  - split; [vm_compute; reflexivity|].
    apply (C16_sorted_values_partial (H := libc0) lists_ctx line its fin (Some ($"weights")) 0 10 (decl_at 10) HMapInt ELong line_parsed);
      [shown|reflexivity|reflexivity|reflexivity|reflexivity].
Qed.
(** Sorted by value, 4294967296 comes before 1. *)
Theorem C16_wide_integers_refuted : exists argv a' it it1 it2, argv = [$"-w"; $"a=1,b=4294967296"; $"f"] /\
  argus_parse (H := libc0) lists_ctx argv = Ok (Returned 0, a') /\ argus_map_it a' (Some ($"weights")) = Ok it /\
  argus_map_next (a_heap a') (Some it) = Ok (true, Some it1) /\ as_int64 (mt_value it1) = Ok 4294967296 /\
  argus_map_next (a_heap a') (Some it1) = Ok (true, Some it2) /\ as_int64 (mt_value it2) = Ok 1.
Proof.
  set (argv := [$"-w"; $"a=1,b=4294967296"; $"f"]). set (a' := ran libc0 lists_ctx argv).
  set (it := map_it_of (argus_map_it a' (Some ($"weights")))). set (it1 := map_next_of (a_heap a') it).
  exists argv, a', it, it1, (map_next_of (a_heap a') it1). split; [reflexivity|]. split; [vm_compute; reflexivity|]. split; [vm_compute; reflexivity|].
  split; [vm_compute; reflexivity|]. split; [vm_compute; reflexivity|]. split; vm_compute; reflexivity.
Qed.
Print Assumptions C16_wide_integers_refuted.

(** ** C18 *)
Theorem C18_ranges `{Libc} a argv its a' p t i d nss :
  parsed a argv its a' -> shows a a' p t i d HArrayInt ->
  N.testbit (d_flags d) 9 = false -> N.testbit (d_flags d) 10 = false ->
  Forall2 int_texts (texts t i its) nss -> ints_read a' p (concat nss).
Proof. exact (ranges_read a argv its a' p t i d nss). Qed.
Print Assumptions C18_ranges.
(** The same with any flags. *)
Theorem C18_flags `{Libc} a argv its a' p t i d nss :
  parsed a argv its a' -> shows a a' p t i d HArrayInt -> Forall2 int_texts (texts t i its) nss ->
  exists ns, ints_read a' p ns /\ treated (N.testbit (d_flags d) 9) (N.testbit (d_flags d) 10) (concat nss) ns.
Proof. exact (ranges_flags a argv its a' p t i d nss). Qed.
Print Assumptions C18_flags.
Example C18_example : texts 0 3 its = [$"5-3,-2,7:8"] /\ ints_read fin (Some ($"ranges")) [3; 4; 5; -2; 7; 8].
Proof.
  split; [vm_compute; reflexivity|].
  apply (C18_ranges (H := libc0) lists_ctx line its fin (Some ($"ranges")) 0 3 (decl_at 3) [[3; 4; 5; -2; 7; 8]] line_parsed);
    [shown|reflexivity|reflexivity|].
  change (texts 0 3 its) with [$"5-3,-2,7:8"]. constructor; [|constructor].
  exists [$"5-3"; $"-2"; $"7:8"], [[3; 4; 5]; [-2]; [7; 8]]. split; [exact (words_elements ($"5-3,-2,7:8"))|]. split; [|reflexivity].
  constructor; [|constructor; [|constructor; [|constructor]]].
  - apply (ip_range 5 3 "-"%char); [split; lia|split; lia|by left].
  - apply (ip_number (-2)); split; lia.
  - apply (ip_range 7 8 ":"%char); [split; lia|split; lia|by right].
Qed.
(** The option --both is sorted and unique. *)
Example C18_flags_example : texts 0 5 its = [$"3,1"; $"2,3"] /\ Forall2 int_texts [$"3,1"; $"2,3"] [[3; 1]; [2; 3]] /\
  treated true true [3; 1; 2; 3] [1; 2; 3] /\
  exists ns, ints_read fin (Some ($"both")) ns /\ treated true true [3; 1; 2; 3] ns.
Proof.
  assert (Forall2 int_texts [$"3,1"; $"2,3"] [[3; 1]; [2; 3]]) as HF.
  { assert (forall n, 0 <= n < 10 -> in_32_bits n) as B by (intros; split; lia).
    constructor; [|constructor; [|constructor]].
    - exists [$"3"; $"1"], [[3]; [1]]. split; [exact (words_elements ($"3,1"))|]. split; [|reflexivity].
      constructor; [|constructor; [|constructor]]; [apply (ip_number 3)|apply (ip_number 1)]; apply B; lia.
    - exists [$"2"; $"3"], [[2]; [3]]. split; [exact (words_elements ($"2,3"))|]. split; [|reflexivity].
      constructor; [|constructor; [|constructor]]; [apply (ip_number 2)|apply (ip_number 3)]; apply B; lia. }
  split; [vm_compute; reflexivity|]. split; [exact HF|]. split.
  - split; [intros x; rewrite !elem_of_cons; intuition|].
    intros i j x y Hij Hx Hy. destruct i as [|[|[|i]]], j as [|[|[|j]]]; simplify_eq/=; lia.
  - apply (C18_flags (H := libc0) lists_ctx line its fin (Some ($"both")) 0 5 (decl_at 5) [[3; 1]; [2; 3]] line_parsed); [shown|].
    change (texts 0 5 its) with [$"3,1"; $"2,3"]. exact HF.
Qed.
(** The greatest int cannot be given. *)
Theorem C18_greatest_refuted : argus_parse (H := libc0) lists_ctx [$"-r"; $"2147483647"; $"f"] = UB SignedOverflow /\
  decimal_text (2 ^ 31 - 1) = $"2147483647".
Proof. split; vm_compute; reflexivity. Qed.
Print Assumptions C18_greatest_refuted.

(** ** C31 *)
Theorem C31_array `{Libc} a argv its a' p t i d f b k :
  parsed a argv its a' -> shows a a' p t i d f -> array_handler f = Some (b, k) ->
  exists c, array_filled d (texts t i its) c /\ argus_count a' p = Ok (length c) /\
    (forall j, (j < length c)%nat -> exists e x, c !! j = Some e /\ argus_array_get a' p j = Ok (x, a') /\ holds (a_heap a') x e) /\
    (forall j, (length c <= j)%nat -> argus_array_get a' p j = Ok (VNull, set_err a' 24)).
Proof.
  intros HP HS Hk. destruct (array_shown a argv its a' p t i d f b k HP HS Hk) as (o & c & fp & _ & _ & _ & Hf & Hc & Hg & Hn).
  exists c. split; [exact Hf|]. split; [exact Hc|]. split; [|exact Hn].
  intros j Hj. destruct (proj2 (lookup_lt_is_Some c j) Hj) as [e He]. destruct (Hg j e He) as [x Hx]. exists e, x. exact (conj He Hx).
Qed.
Print Assumptions C31_array.
Theorem C31_map `{Libc} a argv its a' p t i d f k :
  parsed a argv its a' -> shows a a' p t i d f -> map_handler f = Some k ->
  exists c n, map_filled d (texts t i its) c n /\ argus_count a' p = Ok (length c) /\
    (forall key e, (key, e) ∈ c -> exists x, argus_map_get a' p key = Ok (x, a') /\ holds (a_heap a') x e) /\
    (forall key, key ∉ map fst c -> argus_map_get a' p key = Ok (VNull, set_err a' 25)).
Proof.
  intros HP HS Hk. destruct (CollMaps.map_shown a argv its a' p t i d f k HP HS Hk) as (o & c & n & fp & _ & _ & _ & Hf & Hr).
  exists c, n. exact (conj Hf Hr).
Qed.
Print Assumptions C31_map.
(** Options of another type, and unknown options. *)
Theorem C31_wrong_type a p t i o : find_option_by_active_path a p = Ok (Some (t, i)) -> entry a t i o ->
  (has (d_vtype (decl_of o)) (N.lor VT_ARRAY VT_VARIADIC) = false ->
     forall j, argus_array_get a p j = Ok (VNull, set_err a 23)) /\
  (has (d_vtype (decl_of o)) VT_MAP = false -> forall key, argus_map_get a p key = Ok (VNull, set_err a 23)).
Proof. exact (wrong_access a p t i o). Qed.
Print Assumptions C31_wrong_type.
Theorem C31_unknown a p : find_option_by_active_path a p = Ok None ->
  (forall j, argus_array_get a p j = Ok (VNull, set_err a 22)) /\
  (forall key, argus_map_get a p key = Ok (VNull, set_err a 22)).
Proof. exact (missing_access a p). Qed.
Print Assumptions C31_unknown.
Example C31_example :
  (exists c, array_filled (H := libc0) (decl_at 1) (texts 0 1 its) c /\ argus_count fin (Some ($"tags")) = Ok (length c) /\
    (forall j, (j < length c)%nat -> exists e x, c !! j = Some e /\ argus_array_get fin (Some ($"tags")) j = Ok (x, fin) /\ holds (a_heap fin) x e) /\
    (forall j, (length c <= j)%nat -> argus_array_get fin (Some ($"tags")) j = Ok (VNull, set_err fin 24))) /\
  (exists c n, map_filled (H := libc0) (decl_at 7) (texts 0 7 its) c n /\ argus_count fin (Some ($"define")) = Ok (length c) /\
    (forall key e, (key, e) ∈ c -> exists x, argus_map_get fin (Some ($"define")) key = Ok (x, fin) /\ holds (a_heap fin) x e) /\
    (forall key, key ∉ map fst c -> argus_map_get fin (Some ($"define")) key = Ok (VNull, set_err fin 25))) /\
  argus_count fin (Some ($"tags")) = Ok 3%nat /\ argus_count fin (Some ($"define")) = Ok 2%nat /\
  argus_array_get fin (Some ($"output")) 0 = Ok (VNull, set_err fin 23) /\
  argus_map_get fin (Some ($"nothing")) ($"k") = Ok (VNull, set_err fin 22).
Proof.
  split; [|split; [|split; [|split; [|split]]]].
  - apply (C31_array (H := libc0) lists_ctx line its fin (Some ($"tags")) 0 1 (decl_at 1) HArrayString true EText line_parsed);
      [shown|reflexivity].
  - apply (C31_map (H := libc0) lists_ctx line its fin (Some ($"define")) 0 7 (decl_at 7) HMapString EText line_parsed);
      [shown|reflexivity].
  - vm_compute; reflexivity.
  - vm_compute; reflexivity.
  - apply (proj1 (C31_wrong_type fin (Some ($"output")) 0 12 (opt_at fin 0 12) ltac:(vm_compute; reflexivity)
      ltac:(eexists; split; vm_compute; reflexivity))). vm_compute; reflexivity.
  - apply (proj2 (C31_unknown fin (Some ($"nothing")) ltac:(vm_compute; reflexivity))).
Qed.
(** A list without elements: the count is 1, the read goes through NULL. *)
Theorem C31_empty_list_refuted : exists argv a', argv = [$"-t"; $","; $"f"] /\
  argus_parse (H := libc0) lists_ctx argv = Ok (Returned 0, a') /\
  argus_count a' (Some ($"tags")) = Ok 1%nat /\ argus_array_get a' (Some ($"tags")) 0 = UB NullDeref.
Proof.
  exists [$"-t"; $","; $"f"], (ran libc0 lists_ctx [$"-t"; $","; $"f"]).
  split; [reflexivity|]. split; [vm_compute; reflexivity|]. split; vm_compute; reflexivity.
Qed.
Print Assumptions C31_empty_list_refuted.

(** ** C32 *)
Theorem C32_array `{Libc} a argv its a' p t i d f b k :
  parsed a argv its a' -> shows a a' p t i d f -> array_handler f = Some (b, k) ->
  exists it c xs, argus_array_it a' p = Ok it /\ array_reads a' p c /\ Forall2 (holds (a_heap a')) xs c /\
    (exists it', array_visits (a_heap a') (Some it) xs it' /\ argus_array_next (a_heap a') it' = Ok (false, it')) /\
    forall ys it1, array_visits (a_heap a') (Some it) ys it1 -> exists it2,
      array_visits (a_heap a') (argus_array_reset it1) xs it2 /\ argus_array_next (a_heap a') it2 = Ok (false, it2).
Proof. exact (fun HP HS => iterated_array a argv its a' HP p t i d f HS b k). Qed.
Print Assumptions C32_array.
Theorem C32_map `{Libc} a argv its a' p t i d f k :
  parsed a argv its a' -> shows a a' p t i d f -> map_handler f = Some k ->
  exists it c xs, argus_map_it a' p = Ok it /\ map_reads a' p c /\ Forall2 (holds_pair (a_heap a')) xs c /\
    (exists it', map_visits (a_heap a') (Some it) xs it' /\ argus_map_next (a_heap a') it' = Ok (false, it')) /\
    forall ys it1, map_visits (a_heap a') (Some it) ys it1 -> exists it2,
      map_visits (a_heap a') (argus_map_reset it1) xs it2 /\ argus_map_next (a_heap a') it2 = Ok (false, it2).
Proof. exact (fun HP HS => iterated_map a argv its a' HP p t i d f HS k). Qed.
Print Assumptions C32_map.
Example C32_example :
  (exists it c xs, argus_array_it fin (Some ($"tags")) = Ok it /\ array_reads fin (Some ($"tags")) c /\ Forall2 (holds (a_heap fin)) xs c /\
    (exists it', array_visits (a_heap fin) (Some it) xs it' /\ argus_array_next (a_heap fin) it' = Ok (false, it')) /\
    forall ys it1, array_visits (a_heap fin) (Some it) ys it1 -> exists it2,
      array_visits (a_heap fin) (argus_array_reset it1) xs it2 /\ argus_array_next (a_heap fin) it2 = Ok (false, it2)) /\
  (exists it it1 it2, argus_map_it fin (Some ($"define")) = Ok it /\
    argus_map_next (a_heap fin) (Some it) = Ok (true, Some it1) /\ holds (a_heap fin) (mt_key it1) (Text ($"k")) /\
    holds (a_heap fin) (mt_value it1) (Text ($"3")) /\
    argus_map_next (a_heap fin) (Some it1) = Ok (true, Some it2) /\ holds (a_heap fin) (mt_key it2) (Text ($"j")) /\
    argus_map_next (a_heap fin) (Some it2) = Ok (false, Some it2)).
Proof.
  split.
  - apply (C32_array (H := libc0) lists_ctx line its fin (Some ($"tags")) 0 1 (decl_at 1) HArrayString true EText line_parsed);
      [shown|reflexivity].
  - set (it := map_it_of (argus_map_it fin (Some ($"define")))). set (it1 := map_next_of (a_heap fin) it).
    exists it, it1, (map_next_of (a_heap fin) it1). split; [vm_compute; reflexivity|]. split; [vm_compute; reflexivity|].
    split; [eexists; split; vm_compute; reflexivity|]. split; [eexists; split; vm_compute; reflexivity|].
    split; [vm_compute; reflexivity|]. split; [eexists; split; vm_compute; reflexivity|]. vm_compute; reflexivity.
Qed.
