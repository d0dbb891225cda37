(** * Properties C01-C10, C38, C50: reading the command line *)
From Verif Require Import Validate Api LibProofs FrameProofs SpecGrammar GrammarProofs GrammarLemmas
  ActiveProofs ExLib ExGrammar GrammarFacts CutProofs.

(** ** C01 *)

(** Every command line has exactly one reading. *)
Theorem C01_one_reading D t k only argv :
  subs_present D -> is_Some (D !! t) ->
  exists its, reads D t k only argv its /\ forall its', reads D t k only argv its' -> its' = its.
Proof. exact (reads_exists_unique D t k only argv). Qed.
Print Assumptions C01_one_reading.

(** The parser carries out the reading: same status, same final state, same undefined behaviour. *)
Theorem C01_grammar `{Libc} a argv its :
  subs_present (decls a) -> is_Some (decls a !! a_root a) ->
  reads (decls a) (a_root a) 0 false argv its ->
  parse_args a (Some (a_root a)) 0 false argv = perform a its.
Proof. exact (argus_parse_perform a argv its). Qed.
Print Assumptions C01_grammar.

(** What argus_parse makes of it. *)
Theorem C01_parse_outcome `{Libc} a argv its :
  subs_present (decls a) -> is_Some (decls a !! a_root a) ->
  reads (decls a) (a_root a) 0 false argv its ->
  match perform a its with
  | Ok (st, a1) =>
      argus_parse a argv =
        if st =? 0 then argus_parse a1 []
        else if st =? 1 then let* a2 := argus_free (set_err a1 1) in Ok (Exited 0, a2)
        else let* a2 := argus_free (add_log (set_err a1 st) [EUsage]) in Ok (Returned st, a2)
  | UB u => argus_parse a argv = UB u
  end.
Proof. exact (parse_outcome a argv its). Qed.
Print Assumptions C01_parse_outcome.

Example C01_example :
  reads (decls ex_flat_ctx) 0 0 false
    [$"-vx"; $"--output=f"; $"-7"; $"--"; $"-x"; $"a"]
    [Call 0 1 None; Call 0 2 None; Call 0 3 (Some ($"f")); Call 0 6 (Some ($"-7"));
     Call 0 7 (Some ($"-x")); Call 0 8 (Some ($"a"))].
Proof.
  replace [Call 0 1 None; Call 0 2 None; Call 0 3 (Some ($"f")); Call 0 6 (Some ($"-7"));
     Call 0 7 (Some ($"-x")); Call 0 8 (Some ($"a"))] with
    (plan (decls ex_flat_ctx) 0 0 false [$"-vx"; $"--output=f"; $"-7"; $"--"; $"-x"; $"a"])
    by (vm_compute; reflexivity).
  apply plan_reads; [|eexists; reflexivity]. apply subs_presentb_ok. vm_compute. reflexivity.
Qed.

(** ** C02 *)
Theorem C02_equal_or_separate `{Libc} a pre t T k its name v i d post :
  reached a pre t T k false its ->
  "="%char ∉ name -> name <> [] ->
  first (long_named (key63 name)) T i -> T !! i = Some d -> ~ flag_option d ->
  argus_parse a (pre ++ ($"--" ++ name ++ "="%char :: v) :: post) =
  argus_parse a (pre ++ ($"--" ++ name) :: v :: post).
Proof. exact (equal_or_separate a pre t T k its name v i d post). Qed.
Print Assumptions C02_equal_or_separate.

Example C02_example : argus_parse (H := libc0) ex_flat_ctx (pre0 ++ [$"--output=-g"; $"m"; $"w"]) =
  argus_parse (H := libc0) ex_flat_ctx (pre0 ++ [$"--output"; $"-g"; $"m"; $"w"]) /\
  reached ex_flat_ctx pre0 0 T0 1 false its0.
Proof.
  split; [|exact pre0_reached].
  eapply (C02_equal_or_separate _ _ _ _ _ _ ($"output")); [exact pre0_reached|by apply not_in_dec|done| | |].
  - apply dlong_Some. vm_compute. reflexivity.
  - vm_compute. reflexivity.
  - vm_compute. done.
Qed.

(** ** C03 *)
Theorem C03_cut_cluster `{Libc} a pre t T k its c cs i d post :
  reached a pre t T k false its ->
  first (short_named c) T i -> T !! i = Some d -> flag_option d ->
  c <> "-"%char -> cs <> [] -> (forall s, cs <> "-"%char :: s) ->
  ~ negative_for T k (c :: cs) -> ~ negative_for T k [c] -> ~ negative_for T k cs ->
  argus_parse a (pre ++ ("-"%char :: c :: cs) :: post) =
  argus_parse a (pre ++ ["-"%char; c] :: ("-"%char :: cs) :: post).
Proof. exact (cut_cluster a pre t T k its c cs i d post). Qed.
Print Assumptions C03_cut_cluster.

Example C03_example : argus_parse (H := libc0) ex_flat_ctx (pre0 ++ [$"-vxog"; $"m"; $"w"]) =
  argus_parse (H := libc0) ex_flat_ctx (pre0 ++ [$"-v"; $"-xog"; $"m"; $"w"]).
Proof.
  eapply (C03_cut_cluster _ _ _ _ _ _ "v" ($"xog")); [exact pre0_reached| | | |done..| | |].
  - apply dshort_Some. vm_compute. reflexivity.
  - vm_compute. reflexivity.
  - vm_compute. done.
  - apply not_negative. vm_compute. reflexivity.
  - apply not_negative. vm_compute. reflexivity.
  - apply not_negative. vm_compute. reflexivity.
Qed.

(** ** C04 *)
Theorem C04_attached_or_separate `{Libc} a pre t T k its c v i d post :
  reached a pre t T k false its ->
  first (short_named c) T i -> T !! i = Some d -> ~ flag_option d ->
  c <> "-"%char -> v <> [] ->
  ~ negative_for T k (c :: v) -> ~ negative_for T k [c] ->
  argus_parse a (pre ++ ("-"%char :: c :: v) :: post) =
  argus_parse a (pre ++ ["-"%char; c] :: v :: post).
Proof. exact (attached_or_separate a pre t T k its c v i d post). Qed.
Print Assumptions C04_attached_or_separate.

Example C04_example : argus_parse (H := libc0) ex_flat_ctx (pre0 ++ [$"-o--"; $"m"; $"w"]) =
  argus_parse (H := libc0) ex_flat_ctx (pre0 ++ [$"-o"; $"--"; $"m"; $"w"]).
Proof.
  eapply (C04_attached_or_separate _ _ _ _ _ _ "o" ($"--")); [exact pre0_reached| | | |done|done| |].
  - apply dshort_Some. vm_compute. reflexivity.
  - vm_compute. reflexivity.
  - vm_compute. done.
  - apply not_negative. vm_compute. reflexivity.
  - apply not_negative. vm_compute. reflexivity.
Qed.

(** ** C05 *)
Theorem C05_short_or_long `{Libc} a pre t T k its c name v i d post :
  reached a pre t T k false its ->
  first (short_named c) T i -> first (long_named name) T i -> T !! i = Some d ->
  ~ flag_option d ->
  c <> "-"%char -> name <> [] -> "="%char ∉ name -> (length name <= 63)%nat ->
  ~ negative_for T k [c] ->
  argus_parse a (pre ++ ["-"%char; c] :: v :: post) =
  argus_parse a (pre ++ ($"--" ++ name) :: v :: post).
Proof. exact (short_or_long a pre t T k its c name v i d post). Qed.
Print Assumptions C05_short_or_long.

Theorem C05_short_or_long_flag `{Libc} a pre t T k its c name i d post :
  reached a pre t T k false its ->
  first (short_named c) T i -> first (long_named name) T i -> T !! i = Some d ->
  flag_option d ->
  c <> "-"%char -> name <> [] -> "="%char ∉ name -> (length name <= 63)%nat ->
  ~ negative_for T k [c] ->
  argus_parse a (pre ++ ["-"%char; c] :: post) = argus_parse a (pre ++ ($"--" ++ name) :: post).
Proof. exact (short_or_long_flag a pre t T k its c name i d post). Qed.
Print Assumptions C05_short_or_long_flag.

Example C05_example : argus_parse (H := libc0) ex_flat_ctx (pre0 ++ [$"-t"; $"a,b"; $"m"; $"w"]) =
  argus_parse (H := libc0) ex_flat_ctx (pre0 ++ [$"--tags"; $"a,b"; $"m"; $"w"]).
Proof.
  eapply (C05_short_or_long _ _ _ _ _ _ "t" ($"tags")); [exact pre0_reached| | | | |done|done| | |].
  - apply dshort_Some. vm_compute. reflexivity.
  - apply dlong_Some. vm_compute. reflexivity.
  - vm_compute. reflexivity.
  - vm_compute. done.
  - by apply not_in_dec.
  - apply Nat.leb_le. reflexivity.
  - apply not_negative. vm_compute. reflexivity.
Qed.
Example C05_flag_example : argus_parse (H := libc0) ex_flat_ctx (pre0 ++ [$"-v"; $"m"; $"w"]) =
  argus_parse (H := libc0) ex_flat_ctx (pre0 ++ [$"--verbose"; $"m"; $"w"]).
Proof.
  eapply (C05_short_or_long_flag _ _ _ _ _ _ "v" ($"verbose"));
    [exact pre0_reached| | | | |done|done| | |].
  - apply dshort_Some. vm_compute. reflexivity.
  - apply dlong_Some. vm_compute. reflexivity.
  - vm_compute. reflexivity.
  - vm_compute. done.
  - by apply not_in_dec.
  - apply Nat.leb_le. reflexivity.
  - apply not_negative. vm_compute. reflexivity.
Qed.

(** ** C06 *)

(** After [--] every argument other than [--] goes to the next positional. *)
Theorem C06_after_dashes `{Libc} a pre t T k its ws r :
  reached a pre t T k false its ->
  (forall j w, without_dashes ws !! j = Some w -> receives T (k + j) (r (k + j)%nat)) ->
  parse_args a (Some (a_root a)) 0 false (pre ++ $"--" :: ws) =
  perform a (its ++ handed t r k (without_dashes ws)).
Proof. exact (after_dashes a pre t T k its ws r). Qed.
Print Assumptions C06_after_dashes.
Theorem C06_after_dashes_extra `{Libc} a pre t T k its ws w post r :
  reached a pre t T k false its -> w <> $"--" ->
  (forall j w, without_dashes ws !! j = Some w -> receives T (k + j) (r (k + j)%nat)) ->
  no_receiver T (k + length (without_dashes ws)) ->
  parse_args a (Some (a_root a)) 0 false (pre ++ $"--" :: ws ++ w :: post) =
  perform a (its ++ handed t r k (without_dashes ws) ++ [Reject E_INVALID_ARGUMENT (quoted $"Unknown positional: " (MStr (Some w)))]).
Proof. exact (after_dashes_extra a pre t T k its ws w post r). Qed.
Print Assumptions C06_after_dashes_extra.

Example C06_example :
  parse_args (H := libc0) ex_flat_ctx (Some 0%nat) 0 false
    (pre0 ++ $"--" :: [$"--output"; $"-v"; $"w"]) =
  perform (H := libc0) ex_flat_ctx (its0 ++
    [Call 0 7 (Some ($"--output")); Call 0 8 (Some ($"-v")); Call 0 8 (Some ($"w"))]).
Proof.
  apply (C06_after_dashes (H := libc0) ex_flat_ctx pre0 0 T0 1 its0 [$"--output"; $"-v"; $"w"]
    (fun j => if (j =? 1)%nat then 7%nat else 8%nat) pre0_reached).
  intros [|[|[|j]]] w E; [..|done]; apply dpos_Some; vm_compute; reflexivity.
Qed.

(** The full claim, every argument after the first [--] reaches a positional, fails: further
    [--] arguments are dropped. *)
Theorem C06_every_argument_refuted :
  exists a, reached a [] 0 T0 0 false [] /\ forall L : Libc,
    argus_parse a [$"--"; $"1"; $"--"; $"b"] = argus_parse a [$"--"; $"1"; $"b"].
Proof. exact second_dashes_dropped. Qed.
Print Assumptions C06_every_argument_refuted.

(** ** C07 *)
Theorem C07_words_filled `{Libc} a pre t T k its ws r :
  reached a pre t T k false its -> Forall (plain_word T) ws ->
  (forall j, (j < length ws)%nat -> receives T (k + j) (r (k + j)%nat)) ->
  parse_args a (Some (a_root a)) 0 false (pre ++ ws) = perform a (its ++ handed t r k ws).
Proof. exact (words_filled a pre t T k its ws r). Qed.
Print Assumptions C07_words_filled.
Theorem C07_words_extra `{Libc} a pre t T k its ws w post r :
  reached a pre t T k false its -> Forall (plain_word T) (ws ++ [w]) ->
  (forall j, (j < length ws)%nat -> receives T (k + j) (r (k + j)%nat)) ->
  no_receiver T (k + length ws) ->
  parse_args a (Some (a_root a)) 0 false (pre ++ ws ++ w :: post) =
  perform a (its ++ handed t r k ws ++ [Reject E_INVALID_ARGUMENT (quoted $"Unknown positional: " (MStr (Some w)))]).
Proof. exact (words_extra a pre t T k its ws w post r). Qed.
Print Assumptions C07_words_extra.
(** The receiver is unique; there is none exactly when the positionals are used up and no
    variadic one is declared. *)
Theorem C07_receiver_unique T k i j : receives T k i -> receives T k j -> i = j.
Proof. exact (receives_unique T k i j). Qed.
Print Assumptions C07_receiver_unique.
Theorem C07_no_receiver_iff T k :
  no_receiver T k <->
  (positionals_before T (length T) <= k)%nat /\
  (forall i d, T !! i = Some d -> positional d -> ~ variadic d).
Proof. exact (no_receiver_iff T k). Qed.
Print Assumptions C07_no_receiver_iff.

Example C07_example :
  parse_args (H := libc0) ex_flat_ctx (Some 0%nat) 0 false (pre0 ++ [$"m"; $"a"; $"b"; $"c"]) =
  perform (H := libc0) ex_flat_ctx (its0 ++
    [Call 0 7 (Some ($"m")); Call 0 8 (Some ($"a")); Call 0 8 (Some ($"b"));
     Call 0 8 (Some ($"c"))]).
Proof.
  apply (C07_words_filled (H := libc0) ex_flat_ctx pre0 0 T0 1 its0 [$"m"; $"a"; $"b"; $"c"]
    (fun j => if (j =? 1)%nat then 7%nat else 8%nat) pre0_reached).
  - assert (Hn : forall w, dsub_loop T0 w None 0 = SubNone -> no_subcommand T0 w).
    { intros w Hw. apply dsub_find in Hw. by inversion Hw. }
    repeat constructor; try done; apply Hn; vm_compute; reflexivity.
  - intros j Hj. simpl in Hj.
    destruct j as [|[|[|[|j]]]]; [apply dpos_Some; vm_compute; reflexivity..|].
    do 4 apply Nat.succ_lt_mono in Hj. by apply Nat.nlt_0_r in Hj.
Qed.

(** ** C08 *)
Theorem C08_negative_number `{Libc} a pre t T k its s i d post its' :
  reached a pre t T k false its ->
  negative_tail s -> receives T k i -> T !! i = Some d -> numeric d ->
  reads (decls a) t (S k) false post its' ->
  parse_args a (Some (a_root a)) 0 false (pre ++ ("-"%char :: s) :: post) =
  perform a (its ++ Call t i (Some ("-"%char :: s)) :: its').
Proof. exact (negative_value a pre t T k its s i d post its'). Qed.
Print Assumptions C08_negative_number.

Example C08_example :
  parse_args (H := libc0) ex_flat_ctx (Some 0%nat) 0 false [$"-12"] =
  perform (H := libc0) ex_flat_ctx [Call 0 6 (Some ($"-12"))].
Proof.
  apply (C08_negative_number (H := libc0) ex_flat_ctx [] 0 T0 0 [] ($"12") 6
    (default (decl_of HELP_OPTION) (T0 !! 6%nat)) [] []).
  - exact start_reached.
  - apply negative_dec. reflexivity.
  - apply dpos_Some. vm_compute. reflexivity.
  - vm_compute. reflexivity.
  - left. reflexivity.
  - constructor.
Qed.

(** A variadic positional of integers is not recognised as numeric: [-5] is refused. *)
Theorem C08_variadic_refuted `{Libc} :
  exists a o, a = make_argus [[HELP_OPTION; POSITIONAL_MANY_INT ($"nums") [hlp]]] 0 None /\
    argus_parse a [$"-5"] = Ok (Returned E_INVALID_ARGUMENT, o).
Proof. exact variadic_negative_refused. Qed.
Print Assumptions C08_variadic_refuted.

(** ** C09 *)

(** Exact name, provided no earlier subcommand has a name that begins with the word.
    Missing for the full claim: the case of an earlier longer name (see the refutation). *)
Theorem C09_exact_name_partial `{Libc} a pre t T k its w i d t' post its' :
  reached a pre t T k false its -> (forall s, w <> "-"%char :: s) ->
  T !! i = Some d -> sub_exact w d ->
  (forall j e, (j < i)%nat -> T !! j = Some e -> ~ sub_match w e) ->
  d_sub d = Some t' -> reads (decls a) t' 0 false post its' ->
  parse_args a (Some (a_root a)) 0 false (pre ++ w :: post) = perform a (its ++ Enter t i :: its').
Proof. exact (exact_selected a pre t T k its w i d t' post its'). Qed.
Print Assumptions C09_exact_name_partial.
Theorem C09_unique_prefix `{Libc} a pre t T k its w i d t' post its' :
  reached a pre t T k false its -> (forall s, w <> "-"%char :: s) ->
  T !! i = Some d -> sub_match w d ->
  (forall j e, T !! j = Some e -> sub_match w e -> j = i) ->
  d_sub d = Some t' -> reads (decls a) t' 0 false post its' ->
  parse_args a (Some (a_root a)) 0 false (pre ++ w :: post) = perform a (its ++ Enter t i :: its').
Proof. exact (prefix_selected a pre t T k its w i d t' post its'). Qed.
Print Assumptions C09_unique_prefix.
Theorem C09_ambiguous `{Libc} a pre t T k its w i j d e post :
  reached a pre t T k false its -> (forall s, w <> "-"%char :: s) ->
  i <> j -> T !! i = Some d -> T !! j = Some e -> sub_match w d -> sub_match w e ->
  nowhere (sub_exact w) T ->
  exists f g d1 d2, ambiguous T w f g /\ T !! f = Some d1 /\ T !! g = Some d2 /\
    parse_args a (Some (a_root a)) 0 false (pre ++ w :: post) =
    perform a (its ++ [Reject E_AMBIGUOUS_SUBCOMMAND (two_matches w d1 d2)]).
Proof. exact (several_ambiguous a pre t T k its w i j d e post). Qed.
Print Assumptions C09_ambiguous.

Example C09_example :
  parse_args (H := libc0) ex_tree_ctx (Some 0%nat) 0 false ([$"--verbose"] ++ $"star" :: []) =
    perform (H := libc0) ex_tree_ctx ([Call 0 1 None] ++ [Enter 0 2]) /\
  (exists f g d1 d2, ambiguous T0' ($"sta") f g /\ T0' !! f = Some d1 /\ T0' !! g = Some d2 /\
    parse_args (H := libc0) ex_tree_ctx (Some 0%nat) 0 false ([$"--verbose"] ++ $"sta" :: []) =
    perform (H := libc0) ex_tree_ctx ([Call 0 1 None] ++ [Reject E_AMBIGUOUS_SUBCOMMAND (two_matches ($"sta") d1 d2)])) /\
  parse_args (H := libc0) ex_tree_ctx (Some 0%nat) 0 false ([$"--verbose"] ++ $"status" :: []) =
    perform (H := libc0) ex_tree_ctx ([Call 0 1 None] ++ [Enter 0 3]).
Proof.
  assert (Hm : forall w d, sub_match w d <-> dmatch w d = true) by (intros; symmetry; apply dmatch_dec).
  split; [|split].
  - eapply (C09_unique_prefix (H := libc0) ex_tree_ctx [$"--verbose"] 0 T0' 0 _ ($"star") 2);
      [exact tree_reached|done|reflexivity| | |reflexivity|constructor].
    + apply Hm. reflexivity.
    + intros j e Hj He. apply Hm in He.
      destruct j as [|[|[|[|j]]]]; [..|done]; injection Hj as <-; vm_compute in He; done.
  - eapply (C09_ambiguous (H := libc0) ex_tree_ctx [$"--verbose"] 0 T0' 0 [Call 0 1 None] ($"sta") 2 3 _ _ []);
      [exact tree_reached|done|done|reflexivity|reflexivity|by apply Hm|by apply Hm|].
    intros x Hx [_ Hn]. apply elem_of_list_lookup in Hx as [j Hj].
    destruct j as [|[|[|[|j]]]]; [..|done]; injection Hj as <-; done.
  - eapply (C09_exact_name_partial (H := libc0) ex_tree_ctx [$"--verbose"] 0 T0' 0 _ ($"status") 3);
      [exact tree_reached|done|reflexivity|done| |reflexivity|constructor].
    intros j e Hj He Hx. apply Hm in Hx.
    destruct j as [|[|[|j]]]; [injection He as <-; vm_compute in Hx; done..|].
    do 3 apply Nat.succ_lt_mono in Hj. by apply Nat.nlt_0_r in Hj.
Qed.

(** The exact name of a subcommand declared after a longer one is refused as ambiguous. *)
Theorem C09_exact_name_refuted `{Libc} :
  exists tabs a', argus_init (H := libc0) 3 tabs 0 0 = Ok (Some (make_argus tabs 0 None), O) /\
    (exists T i d, decls (make_argus tabs 0 None) !! 0%nat = Some T /\ T !! i = Some d /\
       sub_exact ($"start") d) /\
    argus_parse (make_argus tabs 0 None) [$"start"] = Ok (Returned E_AMBIGUOUS_SUBCOMMAND, a').
Proof. exact exact_name_ambiguous. Qed.
Print Assumptions C09_exact_name_refuted.

(** In general the first subcommand that the word may mean decides: if it is not named exactly so and
    another one may be meant, the word is refused, even if that other one has exactly this name. *)
Theorem C09_first_decides `{Libc} a pre t T k its w i j d e post :
  reached a pre t T k false its -> (forall s, w <> "-"%char :: s) ->
  first (sub_match w) T i -> T !! i = Some d -> ~ sub_exact w d ->
  i <> j -> T !! j = Some e -> sub_match w e ->
  exists g d2, ambiguous T w i g /\ T !! g = Some d2 /\
    parse_args a (Some (a_root a)) 0 false (pre ++ w :: post) =
    perform a (its ++ [Reject E_AMBIGUOUS_SUBCOMMAND (two_matches w d d2)]).
Proof. exact (first_ambiguous a pre t T k its w i j d e post). Qed.
Print Assumptions C09_first_decides.
Example C09_first_example :
  let a := make_argus tabs_longer_first 0 None in
  let T := from_option id [] (decls a !! 0%nat) in
  exists g d d2, ambiguous T ($"start") 1 g /\ T !! 1%nat = Some d /\ T !! g = Some d2 /\
    parse_args (H := libc0) a (Some 0%nat) 0 false ([] ++ $"start" :: [$"--help"]) =
    perform (H := libc0) a ([] ++ [Reject E_AMBIGUOUS_SUBCOMMAND (two_matches ($"start") d d2)]).
Proof.
  assert (Hm : forall w d, sub_match w d <-> dmatch w d = true) by (intros; symmetry; apply dmatch_dec).
  intros a T.
  assert (E : exists d e, T !! 1%nat = Some d /\ T !! 2%nat = Some e /\ dmatch ($"start") d = true /\
    dmatch ($"start") e = true /\ ~ sub_exact ($"start") d).
  { eexists _, _. split; [reflexivity|]. split; [reflexivity|]. split; [reflexivity|].
    split; [reflexivity|]. intros [_ X]. discriminate X. }
  destruct E as (d & e & H1 & H2 & M1 & M2 & N).
  destruct (C09_first_decides (H := libc0) a [] 0 T 0 [] ($"start") 1 2 d e [$"--help"]) as (g & d2 & A & B & C);
    [|done| |done|done|done|done|by apply Hm|].
  - constructor; [|eexists; reflexivity|reflexivity|apply leads_nil].
    apply subs_presentb_ok. vm_compute. reflexivity.
  - exists d. split; [done|]. split; [by apply Hm|]. intros j x Lj Hx Mx. apply Hm in Mx.
    destruct j as [|j]; [|lia]. injection Hx as <-. discriminate Mx.
  - exists g, d, d2. done.
Qed.

(** ** C10 *)
Theorem C10_success_accepted `{Libc} a argv a' :
  subs_present (decls a) -> is_Some (decls a !! a_root a) ->
  argus_parse a argv = Ok (Returned 0, a') ->
  exists its, reads (decls a) (a_root a) 0 false argv its /\ forall c m, Reject c m ∉ its.
Proof. exact (success_accepted a argv a'). Qed.
Print Assumptions C10_success_accepted.
(** The error of the first rejected token, when everything before it succeeded. *)
Theorem C10_rejected_code `{Libc} a argv its c m a1 o a' :
  subs_present (decls a) -> is_Some (decls a !! a_root a) ->
  reads (decls a) (a_root a) 0 false argv (its ++ [Reject c m]) ->
  (forall c m, Reject c m ∉ its) -> perform a its = Ok (0, a1) ->
  argus_parse a argv = Ok (o, a') -> o = Returned c /\ a_err a' = c.
Proof. exact (rejected_code a argv its c m a1 o a'). Qed.
Print Assumptions C10_rejected_code.
Theorem C10_unknown_long `{Libc} a pre t T k its name suffix post :
  reached a pre t T k false its ->
  "="%char ∉ name -> name ++ suffix <> [] ->
  (suffix = [] \/ exists v, suffix = "="%char :: v) ->
  nowhere (long_named (key63 name)) T ->
  parse_args a (Some (a_root a)) 0 false (pre ++ ($"--" ++ name ++ suffix) :: post) =
  perform a (its ++ [Reject E_INVALID_ARGUMENT (quoted_long $"Unknown option: " (key63 name))]).
Proof. exact (unknown_long a pre t T k its name suffix post). Qed.
Print Assumptions C10_unknown_long.
Theorem C10_missing_long `{Libc} a pre t T k its name i d :
  reached a pre t T k false its ->
  "="%char ∉ name -> name <> [] ->
  first (long_named (key63 name)) T i -> T !! i = Some d -> ~ flag_option d ->
  parse_args a (Some (a_root a)) 0 false (pre ++ [$"--" ++ name]) =
  perform a (its ++ [Reject E_MISSING_VALUE (quoted_long $"Missing value for option: " (key63 name))]).
Proof. exact (missing_long a pre t T k its name i d). Qed.
Print Assumptions C10_missing_long.
(** In a cluster, after any number of flags [fs]. *)
Theorem C10_unknown_short `{Libc} a pre t T k its fs r c cs post :
  reached a pre t T k false its ->
  (forall s, fs ++ c :: cs <> "-"%char :: s) -> ~ negative_for T k (fs ++ c :: cs) ->
  (forall j c, fs !! j = Some c ->
     exists d, first (short_named c) T (r j) /\ T !! r j = Some d /\ flag_option d) ->
  nowhere (short_named c) T ->
  parse_args a (Some (a_root a)) 0 false (pre ++ ("-"%char :: fs ++ c :: cs) :: post) =
  perform a (its ++ imap (fun j _ => Call t (r j) None) fs ++ [Reject E_INVALID_ARGUMENT (quoted_short $"Unknown option: " c)]).
Proof. exact (unknown_short a pre t T k its fs r c cs post). Qed.
Print Assumptions C10_unknown_short.
Theorem C10_missing_short `{Libc} a pre t T k its fs r c i d :
  reached a pre t T k false its ->
  (forall s, fs ++ [c] <> "-"%char :: s) -> ~ negative_for T k (fs ++ [c]) ->
  (forall j c, fs !! j = Some c ->
     exists d, first (short_named c) T (r j) /\ T !! r j = Some d /\ flag_option d) ->
  first (short_named c) T i -> T !! i = Some d -> ~ flag_option d ->
  parse_args a (Some (a_root a)) 0 false (pre ++ ["-"%char :: fs ++ [c]]) =
  perform a (its ++ imap (fun j _ => Call t (r j) None) fs ++ [Reject E_MISSING_VALUE (quoted_short $"Missing value for option: " c)]).
Proof. exact (missing_short a pre t T k its fs r c i d). Qed.
Print Assumptions C10_missing_short.

Example C10_example : exists a',
  argus_parse (H := libc0) ex_flat_ctx (pre0 ++ ($"--" ++ $"nope" ++ []) :: [$"x"]) =
    Ok (Returned E_INVALID_ARGUMENT, a') /\ a_err a' = E_INVALID_ARGUMENT /\
  nowhere (long_named (key63 ($"nope"))) T0.
Proof.
  eexists. split; [vm_compute; reflexivity|]. split; [reflexivity|].
  apply dlong_None. vm_compute. reflexivity.
Qed.

(** ** C38 *)
Theorem C38_exit_ignores_rest `{Libc} a pre t T k its name i d post1 post2 :
  reached a pre t T k false its ->
  "="%char ∉ name -> name <> [] ->
  first (long_named (key63 name)) T i -> T !! i = Some d -> flag_option d ->
  N.testbit (d_flags d) 5 = true ->
  argus_parse a (pre ++ ($"--" ++ name) :: post1) = argus_parse a (pre ++ ($"--" ++ name) :: post2).
Proof. exact (exit_ignores_rest a pre t T k its name i d post1 post2). Qed.
Print Assumptions C38_exit_ignores_rest.
(** The help screen of the current command is shown, everything is released and the process
    exits with success. *)
Theorem C38_help_exits `{Libc} a pre t T k its name i d a1 post :
  a_stack a = [] ->
  reached a pre t T k false its ->
  "="%char ∉ name -> name <> [] ->
  first (long_named (key63 name)) T i -> T !! i = Some d -> flag_option d ->
  d_handler d = Some HHelp -> d_validators d = None -> N.testbit (d_flags d) 5 = true ->
  perform a its = Ok (0, a1) ->
  exists a2, argus_parse a (pre ++ ($"--" ++ name) :: post) =
               (let* a3 := argus_free a2 in Ok (Exited 0, a3)) /\
    a_log a2 = a_log a1 ++ [EHelp t].
Proof. exact (help_exits a pre t T k its name i d a1 post). Qed.
Print Assumptions C38_help_exits.

Example C38_example : exists a2, argus_parse (H := libc0) ex_tree_ctx
    ([$"--verbose"] ++ ($"--" ++ $"help") :: [$"--nonsense"]) =
      (let* a3 := argus_free a2 in Ok (Exited 0, a3)) /\
    a_log a2 = [EHelp 0].
Proof.
  destruct (C38_help_exits (H := libc0) ex_tree_ctx [$"--verbose"] 0 T0' 0 [Call 0 1 None] ($"help") 0
    (default (decl_of HELP_OPTION) (T0' !! 0%nat))
    (match perform (H := libc0) ex_tree_ctx [Call 0 1 None] with
     | Ok (_, a) => a | UB _ => ex_tree_ctx end) [$"--nonsense"])
    as (a2 & E1 & E2);
    [done|exact tree_reached|by apply not_in_dec|done| |reflexivity|done|done|done|done
    |vm_compute; reflexivity|].
  - apply dlong_Some. vm_compute. reflexivity.
  - exists a2. split; [exact E1|]. rewrite E2. vm_compute. reflexivity.
Qed.

(** ** C50 *)
Theorem C50_exact_name_partial `{Libc} a pre t T k its name i d post its' :
  reached a pre t T k false its ->
  "="%char ∉ name -> name <> [] -> (length name <= 63)%nat ->
  (nowhere (long_named name) T ->
     parse_args a (Some (a_root a)) 0 false (pre ++ ($"--" ++ name) :: post) =
     perform a (its ++ [Reject E_INVALID_ARGUMENT (quoted_long $"Unknown option: " name)])) /\
  (first (long_named name) T i -> T !! i = Some d -> flag_option d ->
     reads (decls a) t k false post its' ->
     parse_args a (Some (a_root a)) 0 false (pre ++ ($"--" ++ name) :: post) =
     perform a (its ++ Call t i None :: its')).
Proof. exact (exact_long_name a pre t T k its name i d post its'). Qed.
Print Assumptions C50_exact_name_partial.
(** Any typed name counts by its first 63 characters. *)
Theorem C50_cut `{Libc} a pre t T k its name suffix post :
  reached a pre t T k false its -> "="%char ∉ name -> (suffix = [] \/ exists v, suffix = "="%char :: v) ->
  parse_args a (Some (a_root a)) 0 false (pre ++ ($"--" ++ name ++ suffix) :: post) =
  parse_args a (Some (a_root a)) 0 false (pre ++ ($"--" ++ take 63 name ++ suffix) :: post).
Proof. exact (long_cut a pre t T k its name suffix post). Qed.
Print Assumptions C50_cut.
Example C50_cut_example : exists name a a',
  length name = 70%nat /\ a = make_argus [[HELP_OPTION; OPTION_STRING NUL (Some (replicate 63 "n"%char)) [hlp]]] 0 None /\
  parse_args (H := libc0) a (Some 0%nat) 0 false [$"--" ++ name ++ $"=x"] =
  parse_args (H := libc0) a (Some 0%nat) 0 false [$"--" ++ take 63 name ++ $"=x"] /\
  parse_args (H := libc0) a (Some 0%nat) 0 false [$"--" ++ name ++ $"=x"] = Ok (0, a').
Proof.
  exists (replicate 70 "n"%char). eexists _, _. split; [reflexivity|]. split; [reflexivity|]. split; [|vm_compute; reflexivity].
  refine (C50_cut (H := libc0) _ [] 0 _ 0 [] (replicate 70 "n"%char) ($"=x") [] _ _ _).
  - constructor; [apply subs_presentb_ok; vm_compute; reflexivity|by eexists|reflexivity|].
    exact (leads_nil _ _ _ _).
  - by apply not_in_dec.
  - right. by eexists.
Qed.
(** A name of 64 characters selects the option named by its first 63. *)
Theorem C50_long_name_refuted `{Libc} :
  exists name longer a a',
    a = make_argus [[HELP_OPTION; OPTION_FLAG NUL (Some name) [hlp]]] 0 None /\
    longer = name ++ ["x"%char] /\ length longer = 64%nat /\
    argus_parse a [$"--" ++ longer] = Ok (Returned 0, a') /\
    argus_is_set a' (Some name) = Ok true.
Proof. exact long_name_cut. Qed.
Print Assumptions C50_long_name_refuted.

Example C50_example :
  parse_args (H := libc0) ex_flat_ctx (Some 0%nat) 0 false (pre0 ++ [$"--verbose"; $"m"]) =
  perform (H := libc0) ex_flat_ctx (its0 ++ [Call 0 1 None; Call 0 7 (Some ($"m"))]).
Proof.
  apply (proj2 (C50_exact_name_partial (H := libc0) ex_flat_ctx pre0 0 T0 1 its0 ($"verbose") 1
    (default (decl_of HELP_OPTION) (T0 !! 1%nat)) [$"m"] [Call 0 7 (Some ($"m"))]
    pre0_reached ltac:(by apply not_in_dec) ltac:(done) ltac:(apply Nat.leb_le; reflexivity))).
  - apply dlong_Some. vm_compute. reflexivity.
  - vm_compute. reflexivity.
  - vm_compute. reflexivity.
  - change [Call 0 7 (Some ($"m"))] with (plan (decls ex_flat_ctx) 0 1 false [$"m"]).
    apply plan_reads; [apply (re_subs _ _ _ _ _ _ _ pre0_reached)|eexists; reflexivity].
Qed.
