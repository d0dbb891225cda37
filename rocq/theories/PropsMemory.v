(** * Memory: properties C34, C35, C36, C49 *)
From Verif Require Import Macros Api Validate SpecGrammar SpecAfter SpecStructure SpecMemory SpecContents SpecSafe SpecCollections
  SpecMacros MacroProofs SafeFacts SafeWhole SplitProofs ExLib ExGrammar ExAfter ExStructure ExMemory PropsSplit PropsCollections SpecReuse ReuseProofs SingleProofs.

(** ** C34 *)

(** Undefined behaviour is the outcome [UB]: out-of-bounds and NULL accesses, use after free,
    double free, overflow and reads of uninitialised cells all give it.  From an accepted table
    built with the macros, parsing any harmless input ends properly; after success every read is
    defined, after any sequence of reads; and freeing is always defined, twice as well. *)
Theorem C34_memory_safe `{Libc} tabs root pre argv :
  let a := make_argus tabs root pre in
  built_tables tabs -> accepted a -> no_strays (decls a) root -> qsort_sorts -> harmless_input a argv ->
  exists o a', argus_parse a argv = Ok (o, a') /\
    (o = Returned 0 -> forall a2 p, accesses a' a2 -> readable a2 p) /\
    forall a2, accesses a' a2 -> exists a3, argus_free a2 = Ok a3 /\ argus_free a3 = Ok a3.
Proof.
  exact (fun Hb Ha Hn => whole_safe (make_argus tabs root pre) argv Ha Hn (built_ready tabs root pre Hb)
    (fun t i o => built_single tabs root pre t i o Hb)).
Qed.
Print Assumptions C34_memory_safe.
(** The same for tables written by hand whose parts fit together. *)
Theorem C34_hand_written `{Libc} a argv :
  accepted a -> no_strays (decls a) (a_root a) -> ready a ->
  (forall t i o, entry a t i o -> single_typed (decl_of o)) -> qsort_sorts -> harmless_input a argv ->
  exists o a', argus_parse a argv = Ok (o, a') /\
    (o = Returned 0 -> forall a2 p, accesses a' a2 -> readable a2 p) /\
    forall a2, accesses a' a2 -> exists a3, argus_free a2 = Ok a3 /\ argus_free a3 = Ok a3.
Proof. exact (whole_safe a argv). Qed.
Print Assumptions C34_hand_written.
Example C34_example : exists o a', argus_parse (H := libc0) lists_ctx line = Ok (o, a') /\
    (o = Returned 0 -> forall a2 p, accesses a' a2 -> readable a2 p) /\
    forall a2, accesses a' a2 -> exists a3, argus_free a2 = Ok a3 /\ argus_free a3 = Ok a3.
Proof.
  apply (C34_memory_safe (H := libc0) ex_lists 0 None line lists_built (lists_accepted []) lists_strays (env_sorts [])).
  apply (check_harmless libc0 lists_ctx line lists_fresh); vm_compute; reflexivity.
Qed.
(** An input that is refused after some values were stored. *)
Example C34_example_failing : exists o a', argus_parse (H := libc0) lists_ctx [$"-t"; $"a"; $"-r"; $"1,x"; $"f"] = Ok (o, a') /\
    (o = Returned 0 -> forall a2 p, accesses a' a2 -> readable a2 p) /\
    forall a2, accesses a' a2 -> exists a3, argus_free a2 = Ok a3 /\ argus_free a3 = Ok a3.
Proof.
  apply (C34_memory_safe (H := libc0) ex_lists 0 None _ lists_built (lists_accepted []) lists_strays (env_sorts [])).
  apply (check_harmless_failed libc0 lists_ctx _ 16 lists_fresh); [discriminate|vm_compute; reflexivity|vm_compute; reflexivity].
Qed.
(** Each condition is needed.  A list without elements: freeing goes through NULL. *)
Theorem C34_empty_list_refuted : built_tables ex_lists /\ accepted (H := libc0) lists_ctx /\
  exists argv a', argv = [$"-t"; $","; $"f"] /\ argus_parse (H := libc0) lists_ctx argv = Ok (Returned 0, a') /\
    argus_free a' = UB NullDeref.
Proof.
  split; [exact lists_built|]. split; [exact (lists_accepted [])|].
  exists [$"-t"; $","; $"f"], (ran libc0 lists_ctx [$"-t"; $","; $"f"]). split; [reflexivity|]. split; vm_compute; reflexivity.
Qed.
Print Assumptions C34_empty_list_refuted.
(** A default for an array option is handed to realloc. *)
Definition ex_unfit : list (list opt) :=
  [[HELP_OPTION; OPTION_ARRAY_INT "r" (Some ($"ranges")) [hlp; ENV_VAR ($"RANGES"); FLAGS FLAG_ENV_OVERRIDE];
    OPTION_ARRAY_INT "d" (Some ($"depths")) [hlp; DEFAULT (DString ($"1"))]]].
Definition unfit_ctx : argus := make_argus ex_unfit 0 None.
Lemma unfit_accepted env : accepted (H := libc_env env) unfit_ctx.
Proof. exists 3%nat, ex_unfit, 0%nat, None. split; [vm_compute; reflexivity|done]. Qed.
Theorem C34_array_default_refuted : accepted (H := libc0) unfit_ctx /\
  argus_parse (H := libc0) unfit_ctx [$"-d"; $"2"] = UB InvalidFree.
Proof. split; [exact (unfit_accepted [])|vm_compute; reflexivity]. Qed.
Print Assumptions C34_array_default_refuted.
(** Overriding an array by a malformed environment variable frees its old buffer twice. *)
Theorem C34_env_override_refuted :
  let L := libc_env [($"RANGES", $"1,2,3,4,5,6,7,8,9,x")] in
  accepted (H := L) unfit_ctx /\ argus_parse (H := L) unfit_ctx [$"-r"; $"1"] = UB InvalidFree.
Proof. split; [exact (unfit_accepted _)|vm_compute; reflexivity]. Qed.
Print Assumptions C34_env_override_refuted.
(** Reading after a parse that failed goes through NULL. *)
Theorem C34_read_after_failure_refuted : exists argv a', argv = [$"-t"; $"a"; $"--nope"] /\
  argus_parse (H := libc0) lists_ctx argv = Ok (Returned 12, a') /\
  argus_count a' (Some ($"tags")) = Ok 1%nat /\ argus_array_get a' (Some ($"tags")) 0 = UB NullDeref.
Proof.
  exists [$"-t"; $"a"; $"--nope"], (ran libc0 lists_ctx [$"-t"; $"a"; $"--nope"]).
  split; [reflexivity|]. split; [vm_compute; reflexivity|]. split; vm_compute; reflexivity.
Qed.
Print Assumptions C34_read_after_failure_refuted.

(** ** C35 *)

(** Releasing a block twice is undefined behaviour in the model, so [Ok] means at most once. *)
Theorem C35_released_once_partial `{Libc} a argv its a' : parsed a argv its a' ->
  exists a'', argus_free a' = Ok a'' /\ argus_free a'' = Ok a'' /\ (keys_once a its -> no_live_block a'').
Proof. exact (free_complete a argv its a'). Qed.
Print Assumptions C35_released_once_partial.
Definition line2 : list cstr := [$"-t"; $"b,a"; $"-r"; $"1-9"; $"-D"; $"k=1,j=2"; $"-D"; $"i=3"; $"file"].
Definition its2 : list item := all_items libc0 lists_ctx line2.
Definition fin2 : argus := ran libc0 lists_ctx line2.
Lemma line2_parsed : parsed (H := libc0) lists_ctx line2 its2 fin2.
Proof. apply (lists_parsed []); vm_compute; reflexivity. Qed.
Example C35_example : exists a'', argus_free fin2 = Ok a'' /\ argus_free a'' = Ok a'' /\ no_live_block a''.
Proof.
  destruct (C35_released_once_partial (H := libc0) lists_ctx line2 its2 fin2 line2_parsed) as (a'' & E1 & E2 & E3).
  exists a''. split; [exact E1|]. split; [exact E2|]. apply E3. apply (keys_onceb_ok libc0). vm_compute. reflexivity.
Qed.
(** A key given twice: its second copy stays allocated. *)
Theorem C35_repeated_key_refuted : exists argv a' a'' l, argv = [$"-D"; $"k=1,k=2"; $"f"] /\
  argus_parse (H := libc0) lists_ctx argv = Ok (Returned 0, a') /\ argus_free a' = Ok a'' /\
  blocks (a_heap a'') !! l = Some (Some (BStr ($"k"))).
Proof.
  set (argv := [$"-D"; $"k=1,k=2"; $"f"]). set (a' := ran libc0 lists_ctx argv).
  set (a'' := match argus_free a' with Ok x => x | UB _ => a' end).
  exists argv, a', a'', (default 0%nat (List.find (fun l => match blocks (a_heap a'') !! l with Some (Some _) => true | _ => false end) (seq 0 20))).
  split; [reflexivity|]. split; [vm_compute; reflexivity|]. split; vm_compute; reflexivity.
Qed.
Print Assumptions C35_repeated_key_refuted.
(** A list refused midway: its buffer stays allocated although the parse has freed everything. *)
Theorem C35_refused_list_refuted : exists argv a' l x, argv = [$"-r"; $"1,x"; $"f"] /\
  argus_parse (H := libc0) lists_ctx argv = Ok (Returned 16, a') /\ argus_free a' = Ok a' /\
  blocks (a_heap a') !! l = Some (Some (BArr x)).
Proof.
  set (argv := [$"-r"; $"1,x"; $"f"]). set (a' := ran libc0 lists_ctx argv).
  exists argv, a', 3%nat, (match blocks (a_heap a') !! 3%nat with Some (Some (BArr x)) => x | _ => [] end).
  split; [reflexivity|]. split; [vm_compute; reflexivity|]. split; vm_compute; reflexivity.
Qed.
Print Assumptions C35_refused_list_refuted.

(** ** C36 *)

(** Cutting a list reports a failed allocation and releases what it made (part of C20); what is
    missing: the growth of arrays and maps, see the refutations. *)
Theorem C36_split_partial s (cs : cstr) o h lg : exists r h',
  split s cs (Hst o h lg) = Ok (r, Hst o h' lg) /\
  (r = None -> forall l b, blocks h' !! l = Some (Some b) <-> blocks h !! l = Some (Some b)).
Proof.
  destruct (PropsSplit.C20_split s cs o h lg) as (r & h' & E & _ & Hr). exists r, h'. split; [exact E|]. intros ->. exact Hr.
Qed.
Print Assumptions C36_split_partial.
Example C36_example : exists h',
  split ($"a,b,c") [","%char] (Hst PropsSplit.opt0 (Heap [] [false; false; true]) []) = Ok (None, Hst PropsSplit.opt0 h' []) /\
  blocks h' = [None; None].
Proof. eexists. split; [vm_compute; reflexivity|reflexivity]. Qed.
(** A context whose entries all take single values never allocates: the heap after the parse is the
    one before it, and whatever allocations were to fail, the parse ends the same way, with the same
    values, reports and status. *)
Theorem C36_single `{Libc} a argv orc :
  subs_present (decls a) -> is_Some (decls a !! a_root a) -> all_single a ->
  argus_parse (with_oracle a orc) argv = (let* (o, a') := argus_parse a argv in Ok (o, with_oracle a' orc)) /\
  forall o a', argus_parse a argv = Ok (o, a') -> a_heap a' = a_heap a.
Proof. exact (single_parse orc a argv). Qed.
Print Assumptions C36_single.
Example C36_single_example :
  subs_present (decls ex_tree_ctx) /\ is_Some (decls ex_tree_ctx !! a_root ex_tree_ctx) /\ all_single ex_tree_ctx /\
  exists a', argus_parse (H := libc0) (with_oracle ex_tree_ctx (replicate 50 true)) [$"-v"; $"start"; $"-o"; $"f"; $"x"] = Ok (Returned 0, a') /\
    argus_get a' (Some ($"start.output")) = Ok (PLit ($"f"), a').
Proof.
  split; [apply subs_presentb_ok; vm_compute; reflexivity|]. split; [by eexists|]. split.
  - intros t i o (T & HT & Hi). destruct t as [|[|[|t]]]; cbn in HT; [injection HT as <-..|done].
    all: repeat (destruct i as [|i]; cbn in Hi; [injection Hi as <-; split; [reflexivity|]; cbn; by (intros ? [= <-]) || done|]); done.
  - eexists. split; vm_compute; reflexivity.
Qed.
(** The first allocation of an integer array fails: the write goes through NULL. *)
Definition failing (n : nat) : argus := Argus ex_lists 0 [] 0 (Heap [] (replicate n false ++ [true])) [] None.
Theorem C36_first_refuted : argus_parse (H := libc0) (failing 0) [$"-r"; $"5"; $"f"] = UB NullDeref.
Proof. vm_compute. reflexivity. Qed.
Print Assumptions C36_first_refuted.
(** The growth of an array fails: the ninth element is written behind the buffer. *)
Theorem C36_growth_refuted :
  argus_parse (H := libc0) (failing 1) [$"-r"; $"1-9"; $"f"] = UB OutOfBounds /\
  argus_parse (H := libc0) (failing 19) [$"-t"; $"a,b,c,d,e,f,g,h,i"; $"f"] = UB OutOfBounds.
Proof. split; vm_compute; reflexivity. Qed.
Print Assumptions C36_growth_refuted.

(** ** C49 *)

(** What argus_free leaves behind: in the tables of the line (the root and the tables of the
    selected subcommands) values that were allocated become NULL; counts, capacities, set marks, the
    command stack and error_code are kept, as are values that were not allocated; other tables are
    not touched. *)
Theorem C49_kept a a' : argus_free a = Ok a' ->
  a_root a' = a_root a /\ a_stack a' = a_stack a /\ a_err a' = a_err a /\ a_log a' = a_log a /\
  forall t i o, entry a t i o -> exists o', entry a' t i o' /\
    (in_play a t -> o' = freed o) /\ (~ in_play a t -> o' = o).
Proof. exact (argus_free_entries a a'). Qed.
Print Assumptions C49_kept.
(** Tags, ranges, pairs and a file were given: four values are gone, their numbers are not. *)
Example C49_kept_example : exists a', argus_free fin2 = Ok a' /\ in_play fin2 0 /\
  map (fun o => (value_count o, is_set o)) (default [] (a_tabs a' !! 0%nat)) =
  map (fun o => (value_count o, is_set o)) (default [] (a_tabs fin2 !! 0%nat)) /\
  length (List.filter is_allocated (default [] (a_tabs fin2 !! 0%nat))) = 4%nat /\
  length (List.filter is_allocated (default [] (a_tabs a' !! 0%nat))) = 0%nat /\
  List.filter (fun n => negb (n =? 0)%nat) (map value_count (default [] (a_tabs a' !! 0%nat))) = [2; 9; 3; 1]%nat.
Proof.
  exists (match argus_free fin2 with Ok x => x | UB _ => fin2 end).
  split; [vm_compute; reflexivity|]. split; [by left|]. split_and!; vm_compute; reflexivity.
Qed.

(** After argus_free a second parse keeps the old count: the array has two elements, the first of
    which is uninitialised. *)
Theorem C49_array_refuted : exists argv a1 a2 a3, argv = [$"-r"; $"5"; $"f"] /\
  argus_parse (H := libc0) lists_ctx argv = Ok (Returned 0, a1) /\ argus_count a1 (Some ($"ranges")) = Ok 1%nat /\
  argus_free a1 = Ok a2 /\ argus_parse (H := libc0) a2 argv = Ok (Returned 0, a3) /\
  argus_count a3 (Some ($"ranges")) = Ok 2%nat /\ argus_array_get a3 (Some ($"ranges")) 0 = Ok (Indet, a3).
Proof.
  set (argv := [$"-r"; $"5"; $"f"]). set (a1 := ran libc0 lists_ctx argv).
  set (a2 := match argus_free a1 with Ok x => x | UB _ => a1 end). exists argv, a1, a2, (ran libc0 a2 argv).
  split; [reflexivity|]. split; [vm_compute; reflexivity|]. split; [vm_compute; reflexivity|]. split; [vm_compute; reflexivity|].
  split; [vm_compute; reflexivity|]. split; vm_compute; reflexivity.
Qed.
Print Assumptions C49_array_refuted.
(** An option of the first command line counts as given in the second. *)
Theorem C49_set_refuted : exists a1 a2 a3,
  argus_parse (H := libc0) ex_flat_ctx [$"-v"; $"1"; $"m"; $"f"] = Ok (Returned 0, a1) /\ argus_free a1 = Ok a2 /\
  argus_parse (H := libc0) a2 [$"1"; $"m"; $"f"] = Ok (Returned 0, a3) /\
  argus_is_set a3 (Some ($"verbose")) = Ok true /\
  argus_is_set (ran libc0 ex_flat_ctx [$"1"; $"m"; $"f"]) (Some ($"verbose")) = Ok false.
Proof.
  set (a1 := ran libc0 ex_flat_ctx [$"-v"; $"1"; $"m"; $"f"]).
  set (a2 := match argus_free a1 with Ok x => x | UB _ => a1 end). exists a1, a2, (ran libc0 a2 [$"1"; $"m"; $"f"]).
  split; [vm_compute; reflexivity|]. split; [vm_compute; reflexivity|].
  split; [vm_compute; reflexivity|]. split; vm_compute; reflexivity.
Qed.
Print Assumptions C49_set_refuted.
(** A subcommand of the first command line is selected in the second. *)
Theorem C49_command_refuted : exists a1 a2 a3,
  argus_parse (H := libc0) ex_tree_ctx [$"status"] = Ok (Returned 0, a1) /\ argus_free a1 = Ok a2 /\
  argus_parse (H := libc0) a2 [$"-v"] = Ok (Returned 0, a3) /\ argus_has_command a3 = true /\
  argus_has_command (ran libc0 ex_tree_ctx [$"-v"]) = false.
Proof.
  set (a1 := ran libc0 ex_tree_ctx [$"status"]).
  set (a2 := match argus_free a1 with Ok x => x | UB _ => a1 end). exists a1, a2, (ran libc0 a2 [$"-v"]).
  split; [vm_compute; reflexivity|]. split; [vm_compute; reflexivity|].
  split; [vm_compute; reflexivity|]. split; vm_compute; reflexivity.
Qed.
Print Assumptions C49_command_refuted.
