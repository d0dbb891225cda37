(** * A long name counts by its first 63 characters: the proof of C50_cut *)
From Verif Require Import Validate Api LibProofs FrameProofs SpecGrammar GrammarProofs GrammarLemmas.

Lemma key63_no c name : c ∉ name -> c ∉ key63 name.
Proof. unfold key63. intros HN HI. apply HN. rewrite <- (take_drop 63 name). apply elem_of_app. by left. Qed.
Lemma key63_twice name : key63 (key63 name) = key63 name.
Proof. unfold key63. by rewrite take_take. Qed.
Lemma key63_nil name : key63 name = [] -> name = [].
Proof. by destruct name. Qed.
Lemma plan_cut D t k name suffix rest :
  "="%char ∉ name -> (suffix = [] \/ exists v, suffix = "="%char :: v) ->
  plan D t k false (($"--" ++ name ++ suffix) :: rest) = plan D t k false (($"--" ++ key63 name ++ suffix) :: rest).
Proof.
  intros Hn Hs. destruct (decide (name ++ suffix = [])) as [E|E].
  { apply app_eq_nil in E as [-> ->]. done. }
  assert (E' : key63 name ++ suffix <> []).
  { intros F. apply app_eq_nil in F as [F ->]. apply key63_nil in F as ->. done. }
  cbn [plan]. rewrite !dashes_neq by done. destruct (D !! t) as [T|]; [|done]. rewrite !starts_dashes.
  pose proof (key63_no _ _ Hn) as Hn'. destruct Hs as [->|[v ->]].
  - rewrite !app_nil_r. rewrite !long_name_plain, key63_twice, !strchr_plain by done. done.
  - rewrite !long_name_eq, key63_twice, !strchr_app_eq by done.
    assert (forall n : cstr, drop (S (length n)) (n ++ "="%char :: v) = v) as Ed.
    { intros n. change (S (length n)) with (1 + length n)%nat. rewrite Nat.add_comm, <- drop_drop, drop_app. done. }
    by rewrite !Ed.
Qed.
Lemma long_cut `{Libc} a pre t T k its name suffix post :
  reached a pre t T k false its -> "="%char ∉ name -> (suffix = [] \/ exists v, suffix = "="%char :: v) ->
  parse_args a (Some (a_root a)) 0 false (pre ++ ($"--" ++ name ++ suffix) :: post) =
  parse_args a (Some (a_root a)) 0 false (pre ++ ($"--" ++ key63 name ++ suffix) :: post).
Proof.
  intros Hr Hn Hs. pose proof (re_subs _ _ _ _ _ _ _ Hr) as HS. pose proof (re_table _ _ _ _ _ _ _ Hr) as HT.
  assert (forall argv, parse_args a (Some (a_root a)) 0 false (pre ++ argv) = perform a (its ++ plan (decls a) t k false argv)) as E.
  { intros argv. eapply reached_parse; [exact Hr|]. apply plan_reads; [done|by eexists]. }
  by rewrite !E, plan_cut.
Qed.
