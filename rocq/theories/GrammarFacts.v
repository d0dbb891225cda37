(** * Remaining proofs for PropsGrammar.v: summaries and refutations *)
From Coq Require Import Lia.
From Verif Require Import Validate Api LibProofs FrameProofs SpecGrammar GrammarProofs GrammarLemmas
  ActiveProofs ExLib ExGrammar.

Lemma reads_exists_unique D t k only argv :
  subs_present D -> is_Some (D !! t) ->
  exists its, reads D t k only argv its /\ forall its', reads D t k only argv its' -> its' = its.
Proof.
  intros HS HT. destruct (reads_total D t k only argv HS HT) as [its Hr]. exists its. split; [done|].
  intros its' Hr'. eapply reads_unique; eauto.
Qed.

Lemma parse_outcome `{Libc} a argv its :
  subs_present (decls a) -> is_Some (decls a !! a_root a) ->
  reads (decls a) (a_root a) 0 false argv its ->
  match perform a its with
  | Ok (st, a1) =>
      argus_parse a argv =
        if st =? 0 then argus_parse a1 []
        else if st =? 1 then let* a2 := argus_free (set_err a1 1) in Ok (Exited 0, a2)
        else let* a2 := argus_free (add_log (set_err a1 st) [EUsage]) in Ok (Returned st, a2)
  | UB u => argus_parse a argv = UB u
  end.
Proof.
  intros HS HR Hr. destruct (perform a its) as [[st a1]|u] eqn:E.
  - destruct (Z.eqb_spec st 0) as [->|]; [by eapply parse_goes_on|].
    destruct (Z.eqb_spec st 1) as [->|]; [by eapply parse_exit|]. by eapply parse_error.
  - by eapply parse_ub.
Qed.

Lemma second_dashes_dropped :
  exists a, reached a [] 0 T0 0 false [] /\ forall L : Libc,
    argus_parse a [$"--"; $"1"; $"--"; $"b"] = argus_parse a [$"--"; $"1"; $"b"].
Proof.
  exists ex_flat_ctx. split; [exact start_reached|]. intros L.
  set (r := fun j => if (j =? 0)%nat then 6%nat else 7%nat).
  assert (Hr : forall j w, [$"1"; $"b"] !! j = Some w -> receives T0 (0 + j) (r (0 + j)%nat)).
  { intros [|[|j]] w E; [..|done]; apply dpos_Some; vm_compute; reflexivity. }
  pose proof (after_dashes (H := L) ex_flat_ctx [] 0 T0 0 [] [$"1"; $"--"; $"b"] r start_reached Hr) as E1.
  pose proof (after_dashes (H := L) ex_flat_ctx [] 0 T0 0 [] [$"1"; $"b"] r start_reached Hr) as E2.
  unfold argus_parse. change ([$"--"; $"1"; $"--"; $"b"]) with ([] ++ $"--" :: [$"1"; $"--"; $"b"]).
  change ([$"--"; $"1"; $"b"]) with ([] ++ $"--" :: [$"1"; $"b"]).
  rewrite E1, E2. reflexivity.
Qed.

Lemma variadic_negative_refused `{Libc} :
  exists a o, a = make_argus [[HELP_OPTION; POSITIONAL_MANY_INT ($"nums") [hlp]]] 0 None /\
    argus_parse a [$"-5"] = Ok (Returned E_INVALID_ARGUMENT, o).
Proof. eexists _, _. split; [reflexivity|]. vm_compute. reflexivity. Qed.

Definition tabs_longer_first : list (list opt) :=
  [[HELP_OPTION; SUBCOMMAND (Some ($"start-all")) (Some 1%nat) [hlp];
    SUBCOMMAND (Some ($"start")) (Some 1%nat) [hlp]]; [HELP_OPTION]].
Lemma exact_name_ambiguous `{Libc} :
  exists tabs a', argus_init (H := libc0) 3 tabs 0 0 = Ok (Some (make_argus tabs 0 None), O) /\
    (exists T i d, decls (make_argus tabs 0 None) !! 0%nat = Some T /\ T !! i = Some d /\
       sub_exact ($"start") d) /\
    argus_parse (make_argus tabs 0 None) [$"start"] = Ok (Returned E_AMBIGUOUS_SUBCOMMAND, a').
Proof.
  exists tabs_longer_first. eexists. split; [vm_compute; reflexivity|]. split.
  - eexists _, 2%nat, _. split; [reflexivity|]. split; [reflexivity|]. done.
  - vm_compute. reflexivity.
Qed.

Lemma exact_long_name `{Libc} a pre t T k its name i d post its' :
  reached a pre t T k false its ->
  "="%char ∉ name -> name <> [] -> (length name <= 63)%nat ->
  (nowhere (long_named name) T ->
     parse_args a (Some (a_root a)) 0 false (pre ++ ($"--" ++ name) :: post) =
     perform a (its ++ [Reject E_INVALID_ARGUMENT (quoted_long $"Unknown option: " name)])) /\
  (first (long_named name) T i -> T !! i = Some d -> flag_option d ->
     reads (decls a) t k false post its' ->
     parse_args a (Some (a_root a)) 0 false (pre ++ ($"--" ++ name) :: post) =
     perform a (its ++ Call t i None :: its')).
Proof.
  intros Hr He Hn Hlen.
  assert (Hk : key63 name = name) by (unfold key63; by rewrite take_ge).
  assert (Hx : $"--" ++ name = $"--" ++ name ++ []) by (by rewrite app_nil_r).
  rewrite Hx. split.
  - intros Hno. rewrite <- Hk at 2. eapply unknown_long; eauto; rewrite ?app_nil_r, ?Hk; auto.
  - intros Hf Hd Hfl Hp. eapply reached_parse; [exact Hr|]. destruct Hr.
    eapply r_long_flag; eauto; rewrite ?app_nil_r, ?Hk; auto.
Qed.

Definition name63 : cstr := replicate 63 "n"%char.
Lemma long_name_cut `{Libc} :
  exists name longer a a',
    a = make_argus [[HELP_OPTION; OPTION_FLAG NUL (Some name) [hlp]]] 0 None /\
    longer = name ++ ["x"%char] /\ length longer = 64%nat /\
    argus_parse a [$"--" ++ longer] = Ok (Returned 0, a') /\
    argus_is_set a' (Some name) = Ok true.
Proof.
  exists name63, (name63 ++ ["x"%char]). eexists _, _. split; [reflexivity|]. split; [reflexivity|].
  split; [reflexivity|]. split; vm_compute; reflexivity.
Qed.
