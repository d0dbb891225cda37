(** * A negative number where no number is expected (C08) *)
From Verif Require Import Validate Api LibProofs FrameProofs SpecGrammar GrammarProofs GrammarLemmas.

Lemma negative_otherwise `{Libc} a pre t T k its c s post :
  reached a pre t T k false its -> negative_tail (c :: s) ->
  (forall i d, receives T k i -> T !! i = Some d -> ~ numeric d) ->
  nowhere (short_named c) T ->
  parse_args a (Some (a_root a)) 0 false (pre ++ ("-"%char :: c :: s) :: post) =
  perform a (its ++ [Reject E_INVALID_ARGUMENT (quoted_short $"Unknown option: " c)]).
Proof.
  intros Hr Hn Hno Hc.
  refine (unknown_short a pre t T k its [] (fun _ => O) c s post Hr _ _ _ Hc).
  - intros s' [= -> ->]. destruct Hn as [(d & r & [= <- <-] & X)|(d & r & E & _)]; [|discriminate].
    unfold digits in X. cbn in X. rewrite !elem_of_cons, elem_of_nil in X. naive_solver.
  - intros [_ (i & d & Hi & Hd & N)]. exact (Hno i d Hi Hd N).
  - intros j x Hj. by rewrite lookup_nil in Hj.
Qed.
