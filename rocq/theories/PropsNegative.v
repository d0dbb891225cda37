(** * C08, the other case: a negative number where no number is expected *)
From Verif Require Import Validate Api LibProofs FrameProofs SpecGrammar GrammarProofs GrammarLemmas
  ActiveProofs ExLib ExGrammar GrammarFacts CutProofs NegativeProofs.

(** When the next positional does not take an INT or a FLOAT (in particular when it is variadic), or
    there is none, the word is a cluster of short options: its first character names an unknown
    option, unless a digit or the dot has been declared as a short name. *)
Theorem C08_otherwise `{Libc} a pre t T k its c s post :
  reached a pre t T k false its -> negative_tail (c :: s) ->
  (forall i d, receives T k i -> T !! i = Some d -> ~ numeric d) ->
  nowhere (short_named c) T ->
  parse_args a (Some (a_root a)) 0 false (pre ++ ("-"%char :: c :: s) :: post) =
  perform a (its ++ [Reject E_INVALID_ARGUMENT (quoted_short $"Unknown option: " c)]).
Proof. exact (negative_otherwise a pre t T k its c s post). Qed.
Print Assumptions C08_otherwise.

(** A variadic positional of integers. *)
Definition many_ctx : argus := make_argus [[HELP_OPTION; POSITIONAL_MANY_INT ($"nums") [hlp]]] 0 None.
Definition many_table : list decl := default [] (decls many_ctx !! 0%nat).
Example C08_otherwise_example :
  parse_args (H := libc0) many_ctx (Some 0%nat) 0 false [$"-12"; $"3"] =
  perform (H := libc0) many_ctx [Reject E_INVALID_ARGUMENT (quoted_short $"Unknown option: " "1")].
Proof.
  apply (C08_otherwise (H := libc0) many_ctx [] 0 many_table 0 [] "1" ($"2") [$"3"]).
  - constructor; [|eexists; reflexivity|reflexivity|apply leads_nil]. apply subs_presentb_ok. vm_compute. reflexivity.
  - apply negative_dec. reflexivity.
  - intros i d (e & He & P & _) Hd. rewrite Hd in He. injection He as <-.
    destruct i as [|[|i]]; [|injection Hd as <-; intros [[=]|[=]]|done].
    injection Hd as <-. discriminate P.
  - intros d Hd. apply elem_of_list_In in Hd. destruct Hd as [<-|[<-|[]]]; intros [A B]; discriminate.
Qed.
