(** * Properties of the error messages *)
From Coq Require Import Lia.
From Verif Require Import Macros Validate Messages ChoiceProofs.
From Verif Require Import SpecGrammar SpecAfter AfterProofs SpecTold SpecMessages ToldProofs MessageProofs PropsTold GrammarProofs MoreFacts CheckFacts ExLib
  ExGrammar ExAfter.

(** ** C67 *)

(** What PCRE2 says about patterns, and the contexts of the examples. *)
Definition pcre0 (p : cstr) : cstr := $"bad pattern".
Definition prog0 : program := Program ($"app") None None default_config.
Definition T1' : list decl := map decl_of (default [] (ex_tree !! 1%nat)).
Lemma tree_starts : starts ex_tree_ctx.
Proof. split; [done|]. split; [done|]. apply library_dec. vm_compute. reflexivity. Qed.
Lemma flat_starts : starts ex_flat_ctx.
Proof. split; [done|]. split; [done|]. apply library_dec. vm_compute. reflexivity. Qed.
(** "--verbose start", then nothing or "w". *)
Lemma sub_reached : reached ex_tree_ctx [$"--verbose"; $"start"] 1 T1' 0 false [Call 0 1 None; Enter 0 2].
Proof.
  constructor; [|eexists; reflexivity|reflexivity|].
  - apply subs_presentb_ok. vm_compute. reflexivity.
  - change [$"--verbose"; $"start"] with ([$"--" ++ $"verbose"] ++ [$"start"]).
    change [Call 0 1 None; Enter 0 2] with ([Call 0 1 None] ++ [Enter 0 2]).
    eapply leads_trans.
    { eapply (leads_flag _ _ T0'); [reflexivity|by apply not_in_dec|done|vm_compute; reflexivity..]. }
    eapply (leads_sub _ _ T0'); [reflexivity|done|vm_compute; reflexivity..].
Qed.
Lemma word_reached : reached ex_tree_ctx [$"--verbose"; $"start"; $"w"] 1 T1' 1 false [Call 0 1 None; Enter 0 2; Call 1 2 (Some ($"w"))].
Proof.
  constructor; [|eexists; reflexivity|reflexivity|].
  - apply subs_presentb_ok. vm_compute. reflexivity.
  - change [$"--verbose"; $"start"; $"w"] with ([$"--verbose"; $"start"] ++ [$"w"]).
    change [Call 0 1 None; Enter 0 2; Call 1 2 (Some ($"w"))] with ([Call 0 1 None; Enter 0 2] ++ [Call 1 2 (Some ($"w"))]).
    eapply leads_trans; [exact (re_leads _ _ _ _ _ _ _ sub_reached)|].
    eapply (leads_word _ _ T1'); [reflexivity|done|vm_compute; reflexivity..].
Qed.
Lemma start_called its : entered its = [(0%nat, 2%nat)] -> called (decls ex_tree_ctx) its [$"start"].
Proof.
  intros E. unfold called. rewrite E. apply Forall2_cons. split; [|by apply Forall2_nil].
  exists T0'. eexists. split; [reflexivity|]. split; reflexivity.
Qed.
Definition of_run (lib : Libc) (a : argus) (its : list item) : argus :=
  match perform (H := lib) a its with Ok (_, a') => a' | UB _ => a end.

(** A refused token: one line with the program's name and the message, then the pointer to the
    help of the command selected so far. *)
Theorem C67_rejected `{Libc} (pcre : cstr -> cstr) a argv its c m t cs o a' p : stops_at a argv its c m -> render pcre m = Ok t -> called (decls a) its cs ->
  argus_parse a argv = Ok (o, a') ->
  o = Returned c /\ stderr_of pcre p a' = Ok (told_line (p_name p) t ++ pointer (p_name p) cs).
Proof. exact (rejected_text pcre a argv its c m t cs o a' p). Qed.
Print Assumptions C67_rejected.
Example C67_rejected_example : exists a', argus_parse (H := libc0) ex_tree_ctx [$"--verbose"; $"start"; $"--nope=3"; $"x"] = Ok (Returned 12, a') /\
  stderr_of (H := libc0) pcre0 prog0 a' = Ok ($"app: Unknown option: '--nope'" ++ line_end ++ line_end ++ line_end ++
    $"Try 'app start --help' for more information." ++ line_end).
Proof.
  eexists. split; [vm_compute; reflexivity|].
  refine (proj2 (C67_rejected (H := libc0) pcre0 ex_tree_ctx [$"--verbose"; $"start"; $"--nope=3"; $"x"]
    [Call 0 1 None; Enter 0 2] 12 (quoted_long $"Unknown option: " $"nope") ($"Unknown option: '--nope'") [$"start"] (Returned 12) _ prog0 _ _ _ _)).
  - destruct tree_starts as (S1 & S2 & S3). destruct sub_reached as [R1 R2 R3 [R4 _]]. split; try done.
    + apply (R4 [$"--nope=3"; $"x"] [Reject 12 (quoted_long $"Unknown option: " $"nope")]).
      apply (r_long_unknown _ 1 T1' 0 ($"nope") ($"=3")); [done|by apply not_in_dec|done|right; by exists ($"3")|].
      apply dlong_None. vm_compute. reflexivity.
    + eexists. vm_compute. reflexivity.
  - reflexivity.
  - by apply start_called.
  - vm_compute. reflexivity.
Qed.

(** The tokens one by one.  The name is cut to 63 characters. *)
Theorem C67_unknown_long `{Libc} (pcre : cstr -> cstr) a pre t T k its name suffix post a1 cs o a' p : starts a ->
  reached a pre t T k false its -> "="%char ∉ name -> name ++ suffix <> [] ->
  (suffix = [] \/ exists v, suffix = "="%char :: v) -> nowhere (long_named (key63 name)) T ->
  perform a its = Ok (0, a1) -> called (decls a) its cs ->
  argus_parse a (pre ++ ($"--" ++ name ++ suffix) :: post) = Ok (o, a') ->
  o = Returned 12 /\ stderr_of pcre p a' =
    Ok (told_line (p_name p) (in_quotes $"Unknown option: " ($"--" ++ key63 name)) ++ pointer (p_name p) cs).
Proof. exact (unknown_long_text pcre a pre t T k its name suffix post a1 cs o a' p). Qed.
Print Assumptions C67_unknown_long.
Example C67_unknown_long_example : exists a', argus_parse (H := libc0) ex_tree_ctx ([$"--verbose"; $"start"] ++ ($"--" ++ $"nope" ++ $"=3") :: [$"x"]) = Ok (Returned 12, a') /\
  stderr_of (H := libc0) pcre0 prog0 a' = Ok (told_line ($"app") ($"Unknown option: '--nope'") ++ pointer ($"app") [$"start"]).
Proof.
  eexists. split; [vm_compute; reflexivity|].
  refine (proj2 (C67_unknown_long (H := libc0) pcre0 ex_tree_ctx [$"--verbose"; $"start"] 1 T1' 0 _ ($"nope") ($"=3") [$"x"]
    _ [$"start"] (Returned 12) _ prog0 tree_starts sub_reached _ _ _ _ _ _ _)).
  - by apply not_in_dec.
  - done.
  - right. by exists ($"3").
  - apply dlong_None. vm_compute. reflexivity.
  - vm_compute. reflexivity.
  - by apply start_called.
  - vm_compute. reflexivity.
Qed.

Theorem C67_missing_long `{Libc} (pcre : cstr -> cstr) a pre t T k its name i d a1 cs o a' p : starts a ->
  reached a pre t T k false its -> "="%char ∉ name -> name <> [] ->
  first (long_named (key63 name)) T i -> T !! i = Some d -> ~ flag_option d ->
  perform a its = Ok (0, a1) -> called (decls a) its cs ->
  argus_parse a (pre ++ [$"--" ++ name]) = Ok (o, a') ->
  o = Returned 13 /\ stderr_of pcre p a' =
    Ok (told_line (p_name p) (in_quotes $"Missing value for option: " ($"--" ++ key63 name)) ++ pointer (p_name p) cs).
Proof. exact (missing_long_text pcre a pre t T k its name i d a1 cs o a' p). Qed.
Print Assumptions C67_missing_long.
Example C67_missing_long_example : exists a', argus_parse (H := libc0) ex_tree_ctx ([$"--verbose"; $"start"] ++ [$"--" ++ $"output"]) = Ok (Returned 13, a') /\
  stderr_of (H := libc0) pcre0 prog0 a' = Ok (told_line ($"app") ($"Missing value for option: '--output'") ++ pointer ($"app") [$"start"]).
Proof.
  eexists. split; [vm_compute; reflexivity|].
  refine (proj2 (C67_missing_long (H := libc0) pcre0 ex_tree_ctx [$"--verbose"; $"start"] 1 T1' 0 _ ($"output") 1 (default (decl_of HELP_OPTION) (T1' !! 1%nat))
    _ [$"start"] (Returned 13) _ prog0 tree_starts sub_reached _ _ _ _ _ _ _ _)).
  - by apply not_in_dec.
  - done.
  - apply dlong_Some. vm_compute. reflexivity.
  - reflexivity.
  - vm_compute. done.
  - vm_compute. reflexivity.
  - by apply start_called.
  - vm_compute. reflexivity.
Qed.

Theorem C67_unknown_short `{Libc} (pcre : cstr -> cstr) a pre t T k its fs r c rest post a1 cs o a' p : starts a ->
  reached a pre t T k false its ->
  (forall s, fs ++ c :: rest <> "-"%char :: s) -> ~ negative_for T k (fs ++ c :: rest) ->
  (forall j c, fs !! j = Some c -> exists d, first (short_named c) T (r j) /\ T !! r j = Some d /\ flag_option d) ->
  nowhere (short_named c) T ->
  perform a (its ++ imap (fun j _ => Call t (r j) None) fs) = Ok (0, a1) -> called (decls a) its cs ->
  argus_parse a (pre ++ ("-"%char :: fs ++ c :: rest) :: post) = Ok (o, a') ->
  o = Returned 12 /\ stderr_of pcre p a' =
    Ok (told_line (p_name p) (in_quotes $"Unknown option: " ($"-" ++ [c])) ++ pointer (p_name p) cs).
Proof. exact (unknown_short_text pcre a pre t T k its fs r c rest post a1 cs o a' p). Qed.
Print Assumptions C67_unknown_short.
Example C67_unknown_short_example : exists a', argus_parse (H := libc0) ex_flat_ctx (pre0 ++ ("-"%char :: $"vx" ++ "Z"%char :: $"q") :: [$"m"]) = Ok (Returned 12, a') /\
  stderr_of (H := libc0) pcre0 prog0 a' = Ok (told_line ($"app") ($"Unknown option: '-Z'") ++ pointer ($"app") []).
Proof.
  eexists. split; [vm_compute; reflexivity|].
  refine (proj2 (C67_unknown_short (H := libc0) pcre0 ex_flat_ctx pre0 0 T0 1 _ ($"vx") S "Z" ($"q") [$"m"]
    _ [] (Returned 12) _ prog0 flat_starts pre0_reached _ _ _ _ _ _ _)).
  - done.
  - apply not_negative. vm_compute. reflexivity.
  - intros [|[|j]] c E; [..|by rewrite (lookup_ge_None_2 ($"vx")) in E by (cbn; lia)];
      injection E as <-; eexists; (split; [apply dshort_Some; vm_compute; reflexivity|split; reflexivity]).
  - apply dshort_None. vm_compute. reflexivity.
  - vm_compute. reflexivity.
  - by apply Forall2_nil.
  - vm_compute. reflexivity.
Qed.

Theorem C67_missing_short `{Libc} (pcre : cstr -> cstr) a pre t T k its fs r c i d a1 cs o a' p : starts a ->
  reached a pre t T k false its ->
  (forall s, fs ++ [c] <> "-"%char :: s) -> ~ negative_for T k (fs ++ [c]) ->
  (forall j c, fs !! j = Some c -> exists d, first (short_named c) T (r j) /\ T !! r j = Some d /\ flag_option d) ->
  first (short_named c) T i -> T !! i = Some d -> ~ flag_option d ->
  perform a (its ++ imap (fun j _ => Call t (r j) None) fs) = Ok (0, a1) -> called (decls a) its cs ->
  argus_parse a (pre ++ ["-"%char :: fs ++ [c]]) = Ok (o, a') ->
  o = Returned 13 /\ stderr_of pcre p a' =
    Ok (told_line (p_name p) (in_quotes $"Missing value for option: " ($"-" ++ [c])) ++ pointer (p_name p) cs).
Proof. exact (missing_short_text pcre a pre t T k its fs r c i d a1 cs o a' p). Qed.
Print Assumptions C67_missing_short.
Example C67_missing_short_example : exists a', argus_parse (H := libc0) ex_flat_ctx (pre0 ++ ["-"%char :: $"vx" ++ $"o"]) = Ok (Returned 13, a') /\
  stderr_of (H := libc0) pcre0 prog0 a' = Ok (told_line ($"app") ($"Missing value for option: '-o'") ++ pointer ($"app") []).
Proof.
  eexists. split; [vm_compute; reflexivity|].
  refine (proj2 (C67_missing_short (H := libc0) pcre0 ex_flat_ctx pre0 0 T0 1 _ ($"vx") S "o" 3 (default (decl_of HELP_OPTION) (T0 !! 3%nat))
    _ [] (Returned 13) _ prog0 flat_starts pre0_reached _ _ _ _ _ _ _ _ _)).
  - done.
  - apply not_negative. vm_compute. reflexivity.
  - intros [|[|j]] c E; [..|by rewrite (lookup_ge_None_2 ($"vx")) in E by (cbn; lia)];
      injection E as <-; eexists; (split; [apply dshort_Some; vm_compute; reflexivity|split; reflexivity]).
  - apply dshort_Some. vm_compute. reflexivity.
  - reflexivity.
  - vm_compute. done.
  - vm_compute. reflexivity.
  - by apply Forall2_nil.
  - vm_compute. reflexivity.
Qed.

Theorem C67_unknown_positional `{Libc} (pcre : cstr -> cstr) a pre t T k only its w post a1 cs o a' p : starts a ->
  reached a pre t T k only its -> w <> $"--" -> (only = false -> plain_word T w) -> no_receiver T k ->
  perform a its = Ok (0, a1) -> called (decls a) its cs ->
  argus_parse a (pre ++ w :: post) = Ok (o, a') ->
  o = Returned 12 /\ stderr_of pcre p a' =
    Ok (told_line (p_name p) (in_quotes $"Unknown positional: " w) ++ pointer (p_name p) cs).
Proof. exact (extra_text pcre a pre t T k only its w post a1 cs o a' p). Qed.
Print Assumptions C67_unknown_positional.
Example C67_unknown_positional_example : exists a', argus_parse (H := libc0) ex_tree_ctx ([$"--verbose"; $"start"; $"w"] ++ $"v" :: [$"u"]) = Ok (Returned 12, a') /\
  stderr_of (H := libc0) pcre0 prog0 a' = Ok (told_line ($"app") ($"Unknown positional: 'v'") ++ pointer ($"app") [$"start"]).
Proof.
  eexists. split; [vm_compute; reflexivity|].
  refine (proj2 (C67_unknown_positional (H := libc0) pcre0 ex_tree_ctx [$"--verbose"; $"start"; $"w"] 1 T1' 1 false _ ($"v") [$"u"]
    _ [$"start"] (Returned 12) _ prog0 tree_starts word_reached _ _ _ _ _ _)).
  - done.
  - intros _. split; [done|]. assert (X : dsub_spec T1' ($"v") SubNone) by (apply dsub_find; vm_compute; reflexivity). by inversion X.
  - apply dpos_None. vm_compute. reflexivity.
  - vm_compute. reflexivity.
  - by apply start_called.
  - vm_compute. reflexivity.
Qed.

Theorem C67_ambiguous `{Libc} (pcre : cstr -> cstr) a pre t T k its w i j d e n1 h1 n2 h2 post a1 cs o a' p : starts a ->
  reached a pre t T k false its -> (forall s, w <> "-"%char :: s) -> ambiguous T w i j ->
  T !! i = Some d -> T !! j = Some e ->
  d_name d = Some n1 -> d_help d = Some h1 -> d_name e = Some n2 -> d_help e = Some h2 ->
  perform a its = Ok (0, a1) -> called (decls a) its cs ->
  argus_parse a (pre ++ w :: post) = Ok (o, a') ->
  o = Returned 20 /\ stderr_of pcre p a' =
    Ok (told_line (p_name p) ($"'" ++ w ++ $"' is ambigous and could match:" ++
      concat (map (fun '(n, h) => line_end ++ $"  '" ++ n ++ $"' - " ++ h) [(n1, h1); (n2, h2)])) ++ pointer (p_name p) cs).
Proof. exact (ambiguous_text pcre a pre t T k its w i j d e n1 h1 n2 h2 post a1 cs o a' p). Qed.
Print Assumptions C67_ambiguous.
Example C67_ambiguous_example : exists a', argus_parse (H := libc0) ex_tree_ctx ([$"--verbose"] ++ $"sta" :: [$"w"]) = Ok (Returned 20, a') /\
  stderr_of (H := libc0) pcre0 prog0 a' = Ok ($"app: 'sta' is ambigous and could match:" ++ line_end ++ $"  'start' - text" ++ line_end ++
    $"  'status' - text" ++ line_end ++ pointer ($"app") []).
Proof.
  eexists. split; [vm_compute; reflexivity|].
  refine (proj2 (C67_ambiguous (H := libc0) pcre0 ex_tree_ctx [$"--verbose"] 0 T0' 0 _ ($"sta") 2 3
    (default (decl_of HELP_OPTION) (T0' !! 2%nat)) (default (decl_of HELP_OPTION) (T0' !! 3%nat)) ($"start") ($"text") ($"status") ($"text") [$"w"]
    _ [] (Returned 20) _ prog0 tree_starts tree_reached _ _ eq_refl eq_refl eq_refl eq_refl eq_refl eq_refl _ _ _)).
  - done.
  - assert (X : dsub_spec T0' ($"sta") (SubAmbiguous 2 3)) by (apply dsub_find; vm_compute; reflexivity). by inversion X.
  - vm_compute. reflexivity.
  - by apply Forall2_nil.
  - vm_compute. reflexivity.
Qed.

(** A table with all the rules, and a test of the conditions. *)
Definition ex_said : list (list opt) :=
  [[HELP_OPTION;
    OPTION_INT "n" (Some ($"num")) [hlp; VALIDATOR [V_RANGE 1 10]];
    OPTION_STRING "m" (Some ($"mode")) [hlp; VALIDATOR [V_LENGTH 4 5; V_CHOICE_STR [$"fast"; $"slow"]]];
    OPTION_INT "k" (Some ($"keep")) [hlp; VALIDATOR [V_CHOICE_INT [2; 4]]];
    OPTION_ARRAY_STRING "t" (Some ($"tags")) [hlp; VALIDATOR [V_COUNT 2 3]];
    OPTION_STRING "u" (Some ($"user")) [hlp; REQUIRE [$"num"; $"password"]];
    OPTION_STRING "p" (Some ($"password")) [hlp];
    GROUP_START ($"speed") [FLAGS FLAG_EXCLUSIVE];
    OPTION_FLAG "f" (Some ($"fast")) [hlp];
    OPTION_FLAG "g" (Some ($"medium")) [hlp];
    OPTION_FLAG "s" (Some ($"slow")) [hlp];
    GROUP_END;
    OPTION_FLAG "a" (Some ($"all")) [hlp; CONFLICT [$"keep"; $"list"]];
    OPTION_FLAG "l" (Some ($"list")) [hlp];
    POSITIONAL_STRING ($"file") [hlp]]].
Definition said_ctx : argus := make_argus ex_said 0 None.
Lemma said_fresh : fresh said_ctx.
Proof. apply freshb_ok. vm_compute. reflexivity. Qed.
Lemma said_starts : starts said_ctx.
Proof. split; [done|]. split; [done|]. apply library_dec. vm_compute. reflexivity. Qed.
Definition listableb (f : vfun) : bool :=
  match f with
  | VChoicesStr l => forallb (fun s => negb (bool_decide ("000"%char ∈ s))) l && (Z.of_nat (length (concat l) + length l) <? two64)
  | VChoicesInt l => forallb (fun z => (- 2 ^ 63 <=? z) && (z <? 2 ^ 63)) l && (Z.of_nat (length l) <=? 10 ^ 17)
  | VChoicesFloat _ => false
  | _ => true
  end.
Definition tellableb (D : list (list decl)) : bool :=
  forallb (forallb (fun d => match d_name d with
      | Some _ => true
      | None => bool_decide (d_type d = TGroup) && negb (N.testbit (d_flags d) 14)
      end && (negb (bool_decide (d_type d = TSubcommand)) || match d_help d with Some _ => true | None => false end) &&
    forallb (fun e => listableb (v_fun e)) (validators d))) D.
Lemma tellable_dec (lib : Libc) (D : list (list decl)) : tellableb D = true -> tellable D.
Proof.
  intros F t T d HT Hd. unfold tellableb in F. rewrite forallb_forall in F. apply elem_of_list_lookup_2, elem_of_list_In, F in HT.
  rewrite forallb_forall in HT. apply elem_of_list_In, HT in Hd. clear HT F.
  apply andb_true_iff in Hd as [Hd F3]. apply andb_true_iff in Hd as [F1 F2]. split.
  - intros Hg. destruct (d_name d); [by eexists|]. apply andb_true_iff in F1 as [F1 F4].
    apply bool_decide_eq_true_1, Hg in F1. by rewrite F1 in F4.
  - intros Hs. rewrite bool_decide_eq_true_2 in F2 by done. cbn in F2. destruct (d_help d); [by eexists|done].
  - intros e He. rewrite forallb_forall in F3. apply elem_of_list_In, F3 in He.
    destruct (v_fun e); try done; cbn in He |- *; apply andb_true_iff in He as [He1 He2].
    + split; [|by apply Z.ltb_lt]. apply Forall_forall. intros x Hx. rewrite forallb_forall in He1.
      apply elem_of_list_In, He1, negb_true_iff, bool_decide_eq_false_1 in Hx. done.
    + split; [|by apply Z.leb_le]. apply Forall_forall. intros x Hx. rewrite forallb_forall in He1.
      apply elem_of_list_In, He1 in Hx. lia.
Qed.

(** A line that is read and carried out but does not satisfy the rules: the first entry out of
    order is named, with the reason, and there is no pointer to the help. *)
Theorem C67_checked `{Libc} (pcre : cstr -> cstr) a argv its a2 c a' p : fresh a -> starts a -> tellable (decls a) ->
  assigned a argv its -> perform a its = Ok (0, a2) ->
  argus_parse a argv = Ok (Returned c, a') -> c <> 0 ->
  exists t, first_said a2 c t /\ stderr_of pcre p a' = Ok (told_line (p_name p) t).
Proof. exact (checked_text pcre a argv its a2 c a' p). Qed.
Print Assumptions C67_checked.
Definition stderr_run (lib : Libc) (a : argus) (argv : list cstr) : res (outcome * res cstr) :=
  let* (o, a') := argus_parse (H := lib) a argv in Ok (o, stderr_of (H := lib) pcre0 prog0 a').
Example C67_checked_texts : Forall (fun '(argv, c, t) => stderr_run libc0 said_ctx argv = Ok (Returned c, Ok (told_line ($"app") t)))
  [([$"-n"; $"11"; $"f"], 19, $"Value 11 is out of range 1-10");
   ([$"-m"; $"abc"; $"f"], 19, $"Value length 3 is out of range 4-5");
   ([$"-m"; $"abcd"; $"f"], 18, $"Value 'abcd' is not one of [fast|slow]");
   ([$"-k"; $"3"; $"f"], 18, $"Value '3' is not one of [2|4]");
   ([$"-t"; $"a"; $"f"], 19, $"Values count 1 is out of range 2-3");
   ([$"-u"; $"me"; $"-p"; $"x"; $"f"], 14, $"Required option is missing: 'num' with option 'user'");
   ([$"-gs"; $"f"], 17, $"Exclusive options group 'speed' conflict: 'medium' and 'slow'");
   ([$"-alk"; $"2"; $"f"], 15, $"Conflict between 'all' and 'keep'");
   ([$"-fl"], 14, $"Required positional argument missing: 'file'")].
Proof. repeat (apply Forall_cons; split; [vm_compute; reflexivity|]). by apply Forall_nil. Qed.
Example C67_checked_example : let argv := [$"-n"; $"2"; $"-gs"; $"f"] in exists t,
  first_said (H := libc0) (checked libc0 said_ctx argv) 17 t /\
  stderr_run libc0 said_ctx argv = Ok (Returned 17, Ok (told_line ($"app") t)).
Proof.
  cbv zeta.
  destruct (C67_checked (H := libc0) pcre0 said_ctx [$"-n"; $"2"; $"-gs"; $"f"]
    (all_items libc0 said_ctx [$"-n"; $"2"; $"-gs"; $"f"]) (checked libc0 said_ctx [$"-n"; $"2"; $"-gs"; $"f"]) 17
    (ran libc0 said_ctx [$"-n"; $"2"; $"-gs"; $"f"]) prog0) as (t & F & E).
  - exact said_fresh.
  - exact said_starts.
  - apply tellable_dec. vm_compute. reflexivity.
  - apply all_assigned; [exact said_fresh|]. vm_compute. reflexivity.
  - vm_compute. reflexivity.
  - vm_compute. reflexivity.
  - done.
  - exists t. split; [exact F|]. unfold stderr_run.
    assert (R : argus_parse (H := libc0) said_ctx [$"-n"; $"2"; $"-gs"; $"f"] = Ok (Returned 17, ran libc0 said_ctx [$"-n"; $"2"; $"-gs"; $"f"]))
      by (vm_compute; reflexivity).
    rewrite R. cbn [rbind]. by rewrite E.
Qed.

(** Nothing on standard error otherwise. *)
Theorem C67_silent `{Libc} (pcre : cstr -> cstr) a argv o a' p : starts a -> subs_present (decls a) -> is_Some (decls a !! a_root a) ->
  argus_parse a argv = Ok (o, a') -> o = Returned 0 \/ (exists c, o = Exited c) -> stderr_of pcre p a' = Ok [].
Proof. exact (parse_silent pcre a argv o a' p). Qed.
Print Assumptions C67_silent.
Example C67_silent_example : stderr_run libc0 said_ctx [$"-n"; $"10"; $"-u"; $"me"; $"-p"; $"x"; $"-s"; $"f"] = Ok (Returned 0, Ok []) /\
  stderr_run libc0 said_ctx [$"-n"; $"99"; $"--help"; $"--nope"] = Ok (Exited 0, Ok []) /\
  (starts said_ctx /\ subs_present (decls said_ctx) /\ is_Some (decls said_ctx !! a_root said_ctx)).
Proof.
  split; [vm_compute; reflexivity|]. split; [vm_compute; reflexivity|]. split; [exact said_starts|].
  destruct said_fresh. done.
Qed.

(** Printing is defined for descriptions in which every entry that a message can mention has a
    name, except when memory runs out. *)
Theorem C67_defined `{Libc} (pcre : cstr -> cstr) a argv o a' p : starts a -> tellable (decls a) -> subs_present (decls a) -> is_Some (decls a !! a_root a) ->
  argus_parse a argv = Ok (o, a') -> o <> Returned 26 -> exists t, stderr_of pcre p a' = Ok t.
Proof. exact (parse_defined pcre a argv o a' p). Qed.
Print Assumptions C67_defined.
Example C67_defined_example : starts ex_told_ctx /\ tellable (H := libc0) (decls ex_told_ctx) /\ subs_present (decls ex_told_ctx) /\
  Forall (fun '(argv, c, t) => stderr_run libc0 ex_told_ctx argv = Ok (Returned c, Ok (told_line ($"app") t ++ pointer ($"app") [$"run"])))
  [([$"-n"; $"3"; $"run"; $"-b"; $"x=yes,y=maybe"], 29,
     $"Invalid boolean value for key 'y': 'maybe' (expected true/false, yes/no, 1/0, on/off, y/n)");
   ([$"run"; $"7"; $"x"], 29, $"Invalid integer value 'x' for positional argument 'who'")].
Proof.
  split; [split; [done|]; split; [done|]; exact told_library|].
  split; [apply tellable_dec; vm_compute; reflexivity|]. split; [apply subs_presentb_ok; vm_compute; reflexivity|].
  repeat (apply Forall_cons; split; [vm_compute; reflexivity|]). by apply Forall_nil.
Qed.


(** What is missing: an exclusive group may be declared without a name (argus_init accepts it), the
    message about a conflict then hands the null pointer to %s. *)
Definition ex_nameless : list (list opt) :=
  [[HELP_OPTION; GROUP_BASE None [FLAGS FLAG_EXCLUSIVE];
    OPTION_FLAG "f" (Some ($"fast")) [hlp]; OPTION_FLAG "s" (Some ($"slow")) [hlp]; GROUP_END]].
Theorem C67_nameless_refuted : exists a, argus_init (H := libc0) 3 ex_nameless 0 0 = Ok (Some a, O) /\ starts a /\
  stderr_run libc0 a [$"-f"; $"-s"] = Ok (Returned 17, UB NullDeref).
Proof.
  eexists. split; [vm_compute; reflexivity|]. split; [|vm_compute; reflexivity].
  split; [done|]. split; [done|]. apply library_dec. vm_compute. reflexivity.
Qed.
Print Assumptions C67_nameless_refuted.
(** When the memory for a key of a map runs out, the message about it does the same. *)
Theorem C67_memory_refuted : exists a, a = set_heap ex_told_ctx (Heap [] [true]) /\ tellable (H := libc0) (decls a) /\
  stderr_run libc0 a [$"run"; $"-b"; $"x=yes"] = Ok (Returned 26, UB NullDeref).
Proof.
  eexists. split; [reflexivity|]. split; [apply tellable_dec; vm_compute; reflexivity|]. vm_compute. reflexivity.
Qed.
Print Assumptions C67_memory_refuted.
