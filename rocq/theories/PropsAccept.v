(** * Properties of acceptance: which command lines are taken, and what decides *)
From stdpp Require Import relations.
From Coq Require Import Lia.
From Verif Require Import Macros Validate Messages SpecDisplay ValueProofs SpecMacros MacroProofs SpecGrammar SpecAfter AfterProofs SpecStructure StructProofs SpecValues
  SpecTold SpecMessages SpecMemory SpecContents SpecSafe SpecRefused RefusedProofs SafeFacts PropsTold PropsMessages GrammarProofs MoreFacts ExLib ExGrammar
  ExAfter ExStructure ExMemory PropsRefused SpecAccept AcceptProofs.

(** ** C72 *)

(** Whether the items of a command line are all carried out depends on each item alone, not on the
    items before it. *)
Theorem C72_line `{Libc} a argv its : starts a -> accepted a -> no_strays (decls a) (a_root a) -> ready a -> qsort_sorts ->
  harmless_input a argv -> reads (decls a) (a_root a) 0 false argv its ->
  (exists a1, perform a its = Ok (0, a1)) <-> Forall (item_taken (decls a)) its.
Proof. exact (fun HS Ha Hns Hr HQ Hh => line_taken a argv HS Ha Hns Hr HQ Hh its). Qed.
Print Assumptions C72_line.
(** So the order of the items does not matter for that. *)
Theorem C72_permuted `{Libc} a argv argv' its its' : starts a -> accepted a -> no_strays (decls a) (a_root a) -> ready a ->
  qsort_sorts -> harmless_input a argv -> harmless_input a argv' ->
  reads (decls a) (a_root a) 0 false argv its -> reads (decls a) (a_root a) 0 false argv' its' -> Permutation its its' ->
  (exists a1, perform a its = Ok (0, a1)) <-> (exists a1, perform a its' = Ok (0, a1)).
Proof. exact (permuted_taken a argv argv' its its'). Qed.
Print Assumptions C72_permuted.
(** The parse returns 0 exactly if every item of the line is taken, every value that the
    environment then supplies is taken, and every entry in play is in order at the end. *)
Theorem C72_accepted `{Libc} a argv : starts a -> accepted a -> no_strays (decls a) (a_root a) -> ready a -> qsort_sorts ->
  harmless_input a argv ->
  (exists a', argus_parse a argv = Ok (Returned 0, a')) <->
  exists its a1 a2, reads (decls a) (a_root a) 0 false argv its /\ Forall (item_taken (decls a)) its /\
    perform a its = Ok (0, a1) /\ Forall (item_taken (decls a)) (env_items a1) /\
    perform a1 (env_items a1) = Ok (0, a2) /\ all_in_order a2.
Proof. exact (fun HS Ha Hns Hr HQ Hh => parse_accepts a argv HS Ha Hns Hr HQ Hh). Qed.
Print Assumptions C72_accepted.
(** Otherwise the first item that is not taken decides, whatever comes after it: with its own code,
    or by leaving the program. *)
Theorem C72_first `{Libc} (pcre : cstr -> cstr) a argv its x its2 : starts a -> accepted a -> no_strays (decls a) (a_root a) ->
  ready a -> qsort_sorts -> harmless_input a argv ->
  reads (decls a) (a_root a) 0 false argv (its ++ x :: its2) -> Forall (item_taken (decls a)) its -> ~ item_taken (decls a) x ->
  exists c a', verdict pcre (decls a) x c /\ c <> 0 /\
    argus_parse a argv = Ok (if c =? 1 then Exited 0 else Returned c, a').
Proof. exact (fun HS Ha Hns Hr HQ Hh => first_decides a argv HS Ha Hns Hr HQ Hh its x its2 pcre). Qed.
Print Assumptions C72_first.
(** The same for the values of the environment, where the status 1 is returned instead. *)
Theorem C72_first_environment `{Libc} (pcre : cstr -> cstr) a argv its a1 e1 x e2 : starts a -> accepted a ->
  no_strays (decls a) (a_root a) -> ready a -> qsort_sorts -> harmless_input a argv ->
  reads (decls a) (a_root a) 0 false argv its -> Forall (item_taken (decls a)) its -> perform a its = Ok (0, a1) ->
  env_items a1 = e1 ++ x :: e2 -> Forall (item_taken (decls a)) e1 -> ~ item_taken (decls a) x ->
  exists c a', verdict pcre (decls a) x c /\ c <> 0 /\ argus_parse a argv = Ok (Returned c, a').
Proof. exact (fun HS Ha Hns Hr HQ Hh => first_decides_env a argv HS Ha Hns Hr HQ Hh its a1 e1 x e2 pcre). Qed.
Print Assumptions C72_first_environment.
(** The verdict on an item is one, and never about an item that is taken. *)
Theorem C72_verdict `{Libc} (pcre : cstr -> cstr) D x c : verdict pcre D x c ->
  ~ item_taken D x /\ forall c', verdict pcre D x c' -> c' = c.
Proof. exact (verdict_one pcre D x c). Qed.
Print Assumptions C72_verdict.

(** ** Examples *)
Definition good : list item := [Call 0 1 (Some ($"a@b")); Call 0 2 (Some ($"1-3")); Enter 0 3; Call 1 2 (Some ($"5"))].
Lemma good_reads : reads (decls refused_ctx) (a_root refused_ctx) 0 false [$"-m"; $"a@b"; $"-a"; $"1-3"; $"run"; $"5"] good.
Proof. apply reads_plan; [exact refused_fresh|vm_compute; reflexivity]. Qed.
Lemma good_harmless : harmless_input (H := libc0) refused_ctx [$"-m"; $"a@b"; $"-a"; $"1-3"; $"run"; $"5"].
Proof. apply (check_harmless libc0 refused_ctx _ refused_fresh); vm_compute; reflexivity. Qed.
(** "-m a@b -a 1-3 run 5": four items, each taken. *)
Example C72_line_example : Forall (item_taken (H := libc0) (decls refused_ctx)) good.
Proof.
  apply (proj1 (C72_line (H := libc0) refused_ctx _ good refused_starts (refused_accepted []) refused_strays refused_ready (env_sorts [])
    good_harmless good_reads)).
  exists (of_run libc0 refused_ctx good). vm_compute. reflexivity.
Qed.
(** The two options the other way round. *)
Definition swapped : list item := [Call 0 2 (Some ($"1-3")); Call 0 1 (Some ($"a@b")); Enter 0 3; Call 1 2 (Some ($"5"))].
Example C72_permuted_example : exists a1, perform (H := libc0) refused_ctx swapped = Ok (0, a1).
Proof.
  apply (fun h1 h2 h3 h4 => proj1 (C72_permuted (H := libc0) refused_ctx [$"-m"; $"a@b"; $"-a"; $"1-3"; $"run"; $"5"]
    [$"-a"; $"1-3"; $"-m"; $"a@b"; $"run"; $"5"] good swapped
    refused_starts (refused_accepted []) refused_strays refused_ready (env_sorts []) good_harmless h1 h2 h3 h4)).
  - apply (check_harmless libc0 refused_ctx _ refused_fresh); vm_compute; reflexivity.
  - exact good_reads.
  - apply reads_plan; [exact refused_fresh|vm_compute; reflexivity].
  - apply Permutation_swap.
  - exists (of_run libc0 refused_ctx good). vm_compute. reflexivity.
Qed.
Example C72_accepted_example : exists its a1 a2,
  reads (decls refused_ctx) 0 0 false [$"-m"; $"a@b"; $"-a"; $"1-3"; $"run"; $"5"] its /\
  Forall (item_taken (H := libc0) (decls refused_ctx)) its /\
  perform (H := libc0) refused_ctx its = Ok (0, a1) /\ Forall (item_taken (H := libc0) (decls refused_ctx)) (env_items (H := libc0) a1) /\
  perform (H := libc0) a1 (env_items (H := libc0) a1) = Ok (0, a2) /\ all_in_order a2.
Proof.
  apply (proj1 (C72_accepted (H := libc0) refused_ctx _ refused_starts (refused_accepted []) refused_strays refused_ready (env_sorts []) good_harmless)).
  exists (ran libc0 refused_ctx [$"-m"; $"a@b"; $"-a"; $"1-3"; $"run"; $"5"]). vm_compute. reflexivity.
Qed.
(** "-m ab -a z": both values are bad; the first decides. *)
Example C72_first_example : exists a', argus_parse (H := libc0) refused_ctx [$"-m"; $"ab"; $"-a"; $"z"] = Ok (Returned 29, a').
Proof.
  assert (Hv : verdict (H := libc0) pcre0 (decls refused_ctx) (Call 0 1 (Some ($"ab"))) 29).
  { eapply (vd_refused (H := libc0) pcre0 _ 0 1 _ R0 mail); [reflexivity|reflexivity|exact mail_said]. }
  destruct (C72_verdict (H := libc0) pcre0 _ _ _ Hv) as [Hnt H1].
  destruct (C72_first (H := libc0) pcre0 refused_ctx [$"-m"; $"ab"; $"-a"; $"z"] [] (Call 0 1 (Some ($"ab"))) [Call 0 2 (Some ($"z"))]
    refused_starts (refused_accepted []) refused_strays refused_ready (env_sorts [])) as (c & a' & Hv' & _ & E).
  - apply (check_harmless_failed libc0 refused_ctx _ 29 refused_fresh); [discriminate|vm_compute; reflexivity|vm_compute; reflexivity].
  - apply reads_plan; [exact refused_fresh|vm_compute; reflexivity].
  - constructor.
  - exact Hnt.
  - exists a'. rewrite (H1 _ Hv') in E. exact E.
Qed.
Example C72_first_environment_example :
  exists a', argus_parse (H := libc_env bad_env) refused_ctx [$"run"; $"5"] = Ok (Returned 16, a').
Proof.
  assert (Hv : verdict (H := libc_env bad_env) pcre0 (decls refused_ctx) (Call 0 2 (Some ($"1-3,2x,z"))) 16).
  { eapply (vd_refused (H := libc_env bad_env) pcre0 _ 0 2 _ R0 alls); [reflexivity|reflexivity|apply all_said]. }
  destruct (C72_verdict (H := libc_env bad_env) pcre0 _ _ _ Hv) as [Hnt H1].
  pose (its := [Enter 0 3; Call 1 2 (Some ($"5"))]). pose (a1 := of_run (libc_env bad_env) refused_ctx its).
  assert (Hh : harmless_input (H := libc_env bad_env) refused_ctx [$"run"; $"5"]).
  { apply (check_harmless (libc_env bad_env) refused_ctx _ refused_fresh); vm_compute; reflexivity. }
  assert (Hr : reads (decls refused_ctx) (a_root refused_ctx) 0 false [$"run"; $"5"] its).
  { apply reads_plan; [exact refused_fresh|vm_compute; reflexivity]. }
  assert (Hp : perform (H := libc_env bad_env) refused_ctx its = Ok (0, a1)) by (vm_compute; reflexivity).
  destruct (C72_first_environment (H := libc_env bad_env) pcre0 refused_ctx [$"run"; $"5"] its a1 [Call 0 1 (Some ($"a@b"))] (Call 0 2 (Some ($"1-3,2x,z"))) []
    refused_starts (refused_accepted _) refused_strays refused_ready (env_sorts _)) as (c & a' & Hv' & _ & E).
  - exact Hh.
  - exact Hr.
  - apply (proj1 (C72_line (H := libc_env bad_env) refused_ctx [$"run"; $"5"] its refused_starts (refused_accepted _) refused_strays refused_ready (env_sorts _) Hh Hr)).
    exists a1. exact Hp.
  - exact Hp.
  - vm_compute. reflexivity.
  - apply Forall_singleton.
    assert (Hr1 : reads (decls refused_ctx) (a_root refused_ctx) 0 false [$"-m"; $"a@b"] [Call 0 1 (Some ($"a@b"))]).
    { apply reads_plan; [exact refused_fresh|vm_compute; reflexivity]. }
    assert (F : Forall (item_taken (H := libc_env bad_env) (decls refused_ctx)) [Call 0 1 (Some ($"a@b"))]).
    { apply (fun h1 h2 => proj1 (C72_line (H := libc_env bad_env) refused_ctx [$"-m"; $"a@b"] _ refused_starts (refused_accepted _) refused_strays refused_ready (env_sorts _) h1 h2)).
      - apply (check_harmless (libc_env bad_env) refused_ctx _ refused_fresh); vm_compute; reflexivity.
      - exact Hr1.
      - exists (of_run (libc_env bad_env) refused_ctx [Call 0 1 (Some ($"a@b"))]). vm_compute. reflexivity. }
    exact (Forall_inv F).
  - exact Hnt.
  - exists a'. rewrite (H1 _ Hv') in E. exact E.
Qed.
(** "--help" is an option that is taken and leaves. *)
Example C72_leaves_example : verdict (H := libc0) pcre0 (decls refused_ctx) (Call 0 0 None) 1.
Proof.
  eapply (vd_leaves (H := libc0) pcre0 _ 0 0 None R0); [reflexivity|reflexivity| |reflexivity].
  split; [|exact I]. intros e He. vm_compute in He. by apply elem_of_nil in He.
Qed.
