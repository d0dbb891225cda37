(** * The environment is read only through declared variables: property C82 *)
From Verif Require Import Validate Api LibProofs FrameProofs SpecGrammar GrammarProofs GrammarLemmas
  ActiveProofs SpecAfter AfterProofs EnvProofs CallProofs WholeProofs SpecValues ValueProofs AfterFacts
  LookupProofs MoreFacts CheckFacts ExLib ExGrammar ExAfter SpecEnvironment SpecListen ListenProofs.

(** ** C82 *)

(** Environments that agree on the variables of the options that are left open by the line lead to
    the same parse: the same ending, values, messages, memory and undefined behaviour. *)
Theorem C82_only_declared L L' a argv its :
  same_but_environment L L' -> fresh a -> reads (decls a) (a_root a) 0 false argv its ->
  (forall n, listens a its n -> getenv (Libc := L) n = getenv (Libc := L') n) ->
  argus_parse (H := L) a argv = argus_parse (H := L') a argv.
Proof. exact (fun HL => only_declared L L' HL a argv its). Qed.
Print Assumptions C82_only_declared.

(** A program with a prefix of its own, none of whose options in use gives it up, reads no variable
    outside that prefix (as written or in upper case). *)
Theorem C82_own_names L L' a argv its p :
  same_but_environment L L' -> fresh a -> reads (decls a) (a_root a) 0 false argv its ->
  a_prefix a = Some p -> (length p <= 127)%nat ->
  (forall t i o, used a its t -> entry a t i o -> ~ flag 8 o) ->
  (forall n, p `prefix_of` n \/ map upper_case p `prefix_of` n ->
    getenv (Libc := L) n = getenv (Libc := L') n) ->
  argus_parse (H := L) a argv = argus_parse (H := L') a argv.
Proof. exact (own_names L L' a argv its p). Qed.
Print Assumptions C82_own_names.

(** On this line the password is given and the depth has a default, so only APP_COLOR_MODE is open:
    another password, a depth that is no number, and other variables change nothing. *)
Definition env2 : Libc :=
  libc_env [($"PATH", $"/bin"); ($"COLOR_MODE", $"No"); ($"APP_PASSWORD", $"other"); ($"APP_DEPTH", $"deep");
            ($"APP_COLOR_MODE", $"Yes")].
Lemma rules_entry t i o : entry rules_ctx t i o -> t = 0%nat /\ nth i (nth 0 ex_rules []) o = o /\ (i < 14)%nat.
Proof.
  intros (T & HT & Ho). destruct t as [|t]; [|done]. split; [done|].
  change (a_tabs rules_ctx !! 0%nat) with (Some (nth 0 ex_rules [])) in HT. injection HT as <-.
  split; [by erewrite nth_lookup_Some|]. by apply lookup_lt_Some in Ho.
Qed.

Example C82_example :
  argus_parse (H := env1) rules_ctx line1 = argus_parse (H := env2) rules_ctx line1 /\
  argus_parse (H := env2) rules_ctx line1 = Ok (Returned 0, ran env1 rules_ctx line1).
Proof.
  assert (E : argus_parse (H := env1) rules_ctx line1 = argus_parse (H := env2) rules_ctx line1).
  { apply (C82_only_declared env1 env2 rules_ctx line1 (plan_of rules_ctx line1));
      [reflexivity|exact rules_fresh|apply plan_reads_of, rules_fresh|].
    intros n (t & i & o & _ & Ho & _ & Hs & Hn). apply rules_entry in Ho as (-> & Ho & Hi).
    destruct i as [|[|[|[|[|[|[|[|[|[|[|[|[|[|i]]]]]]]]]]]]]]; [..|lia]; cbn [nth ex_rules] in Ho; subst o; vm_compute in Hn; try discriminate Hn.
    - exfalso. destruct Hs as [Hs|[_ Hs]]; [by vm_compute in Hs|].
      apply (Hs (Call 0 2 (Some ($"x")))); [|left; eauto]. vm_compute. right. left.
    - exfalso. destruct Hs as [Hs|[Hs _]]; by vm_compute in Hs.
    - injection Hn as <-. vm_compute. reflexivity. }
  split; [exact E|]. rewrite <- E. exact run1.
Qed.

(** All of its variables begin with APP. *)
Definition env3 : Libc :=
  libc_env [($"PATH", $"/bin"); ($"COLOR_MODE", $"No"); ($"PASSWORD", $"other");
            ($"APP_PASSWORD", $"secret"); ($"APP_DEPTH", $"9"); ($"APP_COLOR_MODE", $"Yes")].
Example C82_own_names_example :
  argus_parse (H := env3) rules_ctx line1 = Ok (Returned 0, ran env1 rules_ctx line1).
Proof.
  rewrite <- run1. symmetry.
  apply (C82_own_names env1 env3 rules_ctx line1 (plan_of rules_ctx line1) ($"APP"));
    [reflexivity|exact rules_fresh|apply plan_reads_of, rules_fresh|reflexivity|vm_compute; lia| |].
  - intros t i o _ Ho. apply rules_entry in Ho as (-> & Ho & Hi).
    destruct i as [|[|[|[|[|[|[|[|[|[|[|[|[|[|i]]]]]]]]]]]]]]; [..|lia]; cbn [nth ex_rules] in Ho; subst o; by vm_compute.
  - intros n Hn. assert (Hp : $"APP" `prefix_of` n) by (by destruct Hn). destruct Hp as [r ->].
    reflexivity.
Qed.
