(** * Property C36 once more: a parse that succeeds had all the memory it asked for *)
From Coq Require Import Lia.
From Verif Require Import Api Macros LibProofs SpecGrammar SpecAfter AfterFacts SpecMemory SpecContents SpecSafe SpecStructure GrammarProofs GrammarLemmas EnvProofs AfterProofs WholeProofs CollProofs ExLib ExGrammar ExAfter ExMemory
  SpecReuse SpecScarce ScarceWhole.

(** Whatever allocations are going to fail: if the parse returns 0, then none that it made failed,
    and its result is the result of the parse with ample memory. *)
Theorem C36_success `{Libc} a argv orc b : accepted a -> no_strays (decls a) (a_root a) -> ready a -> qsort_sorts ->
  harmless_input a argv -> no_unique_values a argv ->
  argus_parse (with_oracle a orc) argv = Ok (Returned 0, b) ->
  argus_parse a argv = Ok (Returned 0, with_oracle b []) /\ none_failed orc (oom (a_heap b)).
Proof. exact (parse_scarce a argv orc b). Qed.
Print Assumptions C36_success.
(** Arrays that grow, a sorted list of texts and a map, the 19 allocations this takes succeed, all
    further ones would fail. *)
Example C36_success_example :
  let argv := [$"-r"; $"1-20"; $"-s"; $"b,a"; $"-D"; $"k=1,l=2"; $"f"] in
  let orc := replicate 19 false ++ replicate 40 true in
  accepted (H := libc0) lists_ctx /\ no_strays (decls lists_ctx) 0 /\ ready lists_ctx /\ qsort_sorts (H := libc0) /\
  harmless_input (H := libc0) lists_ctx argv /\ no_unique_values (H := libc0) lists_ctx argv /\
  exists b, argus_parse (H := libc0) (with_oracle lists_ctx orc) argv = Ok (Returned 0, b) /\
    oom (a_heap b) = replicate 40 true.
Proof.
  cbv zeta. set (argv := [$"-r"; $"1-20"; $"-s"; $"b,a"; $"-D"; $"k=1,l=2"; $"f"]).
  assert (Hp : perform (H := libc0) lists_ctx (plan_of lists_ctx argv) = Ok (0, mid libc0 lists_ctx argv)) by (vm_compute; reflexivity).
  split; [exact (lists_accepted [])|]. split; [exact lists_strays|]. split; [exact lists_ready|]. split; [exact (env_sorts [])|].
  split; [apply check_harmless; [exact lists_fresh|exact Hp|vm_compute; reflexivity]|]. split.
  - intros its t i v T d Hr Hi HT Hd.
    assert (Hi' : Call t i v ∈ all_items libc0 lists_ctx argv).
    { destruct Hr as [Hr|Ha].
      - assert (its = plan_of lists_ctx argv) as ->.
        { pose proof lists_fresh as []. eapply reads_unique; [exact Hr|]. by apply plan_reads. }
        unfold all_items. apply elem_of_app. by left.
      - assert (its = all_items libc0 lists_ctx argv) as ->; [|done]. eapply assigned_unique; [exact Ha|]. apply all_assigned; [exact lists_fresh|exact Hp]. }
    assert (Hb : forallb (fun x => match x with
        | Call t i _ => match decls lists_ctx !! t with Some T => match T !! i with Some d => negb (N.testbit (d_flags d) 13) | None => true end | None => true end
        | _ => true end) (all_items libc0 lists_ctx argv) = true) by (vm_compute; reflexivity).
    rewrite forallb_forall in Hb. apply elem_of_list_In in Hi'. specialize (Hb _ Hi'). cbv beta iota in Hb. rewrite HT, Hd in Hb. by apply negb_true_iff in Hb.
  - eexists. split; vm_compute; reflexivity.
Qed.
(** Without that condition it is false: when the marks for repeated values cannot be allocated, the
    repeated values are kept and nothing is said (multi_values.c 270-272). *)
Theorem C36_unique_values_refuted : exists argv orc a b,
  argv = [$"-v"; $"x=5,y=5"; $"f"] /\
  argus_parse (H := libc0) lists_ctx argv = Ok (Returned 0, a) /\
  argus_parse (H := libc0) (with_oracle lists_ctx orc) argv = Ok (Returned 0, b) /\ a_log b = [] /\
  argus_count a (Some ($"values")) = Ok 1%nat /\
  argus_count b (Some ($"values")) = Ok 2%nat /\
  ~ none_failed orc (oom (a_heap b)).
Proof.
  set (argv := [$"-v"; $"x=5,y=5"; $"f"]). set (orc := replicate 6 false ++ [true]).
  exists argv, orc, (ran libc0 lists_ctx argv), (ran libc0 (with_oracle lists_ctx orc) argv).
  split; [reflexivity|]. split; [vm_compute; reflexivity|]. split; [vm_compute; reflexivity|]. split; [vm_compute; reflexivity|].
  split; [vm_compute; reflexivity|]. split; [vm_compute; reflexivity|].
  replace (oom (a_heap (ran libc0 (with_oracle lists_ctx orc) argv))) with (@nil bool) by (vm_compute; reflexivity).
  intros (used & E & Hu). rewrite app_nil_r in E. subst used. assert (X : true = false); [|done]. apply Hu. unfold orc. apply elem_of_app. right. left.
Qed.
Print Assumptions C36_unique_values_refuted.
