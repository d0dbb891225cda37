(** * Properties C11, C12, C17, C19, C21-C30, C33, C37: the whole parse *)
From Verif Require Import Validate Api LibProofs FrameProofs SpecGrammar GrammarProofs GrammarLemmas
  ActiveProofs SpecAfter AfterProofs EnvProofs CallProofs WholeProofs IsolationProofs SpecValues
  ValueProofs AfterFacts LookupProofs MoreFacts CheckFacts SpecLeading LeadingProofs ExLib ExGrammar ExAfter.

(** The example table is accepted by the structure check. *)
Example rules_accepted : argus_init (H := libc0) 3 ex_rules 0 0 = Ok (Some (make_argus ex_rules 0 None), O).
Proof. vm_compute. reflexivity. Qed.

(** ** C11 *)
Theorem C11_isolation `{Libc} a argv o a' :
  subs_present (decls a) -> is_Some (decls a !! a_root a) ->
  argus_parse a argv = Ok (o, a') ->
  decls a' = decls a /\ a_root a' = a_root a /\ a_prefix a' = a_prefix a /\
  forall t, ~ in_play a' t -> a_tabs a' !! t = a_tabs a !! t.
Proof. exact (isolation a argv o a'). Qed.
Print Assumptions C11_isolation.

Example C11_example : let a' := ran libc0 ex_tree_ctx [$"start"; $"-o"; $"x"; $"w"] in
  argus_parse (H := libc0) ex_tree_ctx [$"start"; $"-o"; $"x"; $"w"] = Ok (Returned 0, a') /\
  in_play a' 1 /\ ~ in_play a' 2 /\ a_tabs a' !! 2%nat = a_tabs ex_tree_ctx !! 2%nat /\
  a_tabs a' !! 1%nat <> a_tabs ex_tree_ctx !! 1%nat.
Proof.
  cbv zeta. assert (E : argus_parse (H := libc0) ex_tree_ctx [$"start"; $"-o"; $"x"; $"w"] =
    Ok (Returned 0, ran libc0 ex_tree_ctx [$"start"; $"-o"; $"x"; $"w"])) by (vm_compute; reflexivity).
  assert (Hn : ~ in_play (ran libc0 ex_tree_ctx [$"start"; $"-o"; $"x"; $"w"]) 2).
  { intros [Hx|(r & Hr & Hx)]; [done|]. vm_compute in Hr. apply elem_of_list_singleton in Hr as ->. done. }
  destruct tree_fresh as [_ _ HR HS _ _].
  split_and!; [done| |done| |].
  - right. exists (0%nat, 2%nat). split; [left|reflexivity].
  - by apply (C11_isolation _ _ _ _ HS HR E).
  - vm_compute. congruence.
Qed.

(** ** C12 *)
Theorem C12_last_wins `{Libc} a argv a' its1 its2 t i v T d f :
  fresh a -> argus_parse a argv = Ok (Returned 0, a') ->
  assigned a argv (its1 ++ Call t i v :: its2) ->
  (forall x, x ∈ its2 -> ~ touches t i x) ->
  decls a !! t = Some T -> T !! i = Some d -> d_handler d = Some f -> scalar f ->
  exists x o', denoted f v x /\ entry a' t i o' /\ value o' = x.
Proof. exact (last_wins a argv a' its1 its2 t i v T d f). Qed.
Print Assumptions C12_last_wins.

(** There is exactly one list of assignments. *)
Theorem C12_assignments `{Libc} a argv a' :
  fresh a -> argus_parse a argv = Ok (Returned 0, a') ->
  exists its, assigned a argv its /\ forall its', assigned a argv its' -> its' = its.
Proof. exact (success_assigned a argv a'). Qed.
Print Assumptions C12_assignments.

Example C12_example : exists o', entry (ran env1 rules_ctx line1) 0 9 o' /\ value o' = of_int64 3.
Proof.
  destruct (C12_last_wins (H := env1) rules_ctx line1 _
    [Call 0 1 (Some ($"me")); Call 0 2 (Some ($"x")); Call 0 4 None; Call 0 9 (Some ($"7"))]
    [Call 0 13 (Some ($"f.txt")); Call 0 11 (Some ($"Yes"))] 0 9 (Some ($"3"))
    (map decl_of (default [] (ex_rules !! 0%nat))) (decl_of (opt_at rules_ctx 0 9)) HInt
    rules_fresh run1 assigned1) as (x & o' & Hx & Ho & Hv); try reflexivity.
  - untouched.
  - unfold scalar. auto.
  - exists o'. split; [done|]. rewrite Hv, (denoted_fun _ _ _ _ Hx (dn_int _)). vm_compute. reflexivity.
Qed.

(** ** C17 *)
Theorem C17_integer `{Libc} a argv a' its1 its2 t i n T d p :
  fresh a -> argus_parse a argv = Ok (Returned 0, a') ->
  assigned a argv (its1 ++ Call t i (Some (decimal_text n)) :: its2) ->
  (forall x, x ∈ its2 -> ~ touches t i x) ->
  decls a !! t = Some T -> T !! i = Some d -> d_handler d = Some HInt ->
  find_option_by_active_path a' p = Ok (Some (t, i)) ->
  exists x, argus_get a' p = Ok (x, set_err a' 0) /\ as_int64 x = Ok (saturated n) /\
    (- 2 ^ 63 <= n < 2 ^ 63 -> as_int64 x = Ok n) /\
    (- 2 ^ 31 <= n < 2 ^ 31 -> as_int x = Ok n).
Proof. exact (integer_last a argv a' its1 its2 t i n T d p). Qed.
Print Assumptions C17_integer.

Example C17_example : decimal_text (-9223372036854775808) = $"-9223372036854775808" /\
  exists x, argus_get (ran env1 rules_ctx line1) (Some ($"num")) =
    Ok (x, set_err (ran env1 rules_ctx line1) 0) /\ as_int x = Ok 3.
Proof.
  split; [vm_compute; reflexivity|].
  destruct (C17_integer (H := env1) rules_ctx line1 (ran env1 rules_ctx line1)
    [Call 0 1 (Some ($"me")); Call 0 2 (Some ($"x")); Call 0 4 None; Call 0 9 (Some ($"7"))]
    [Call 0 13 (Some ($"f.txt")); Call 0 11 (Some ($"Yes"))] 0 9 3
    (map decl_of (default [] (ex_rules !! 0%nat))) (decl_of (opt_at rules_ctx 0 9)) (Some ($"num"))
    rules_fresh run1 assigned1) as (x & Hx & _ & _ & Hi); try reflexivity.
  - untouched.
  - exists x. split; [done|]. apply Hi. lia.
Qed.

(** A text that is not a number is taken as 0, trailing garbage is ignored. *)
Theorem C17_garbage_refuted :
  exists a argv a', fresh a /\ argv = [$"-d"; $"abc"; $"-n"; $"7up"; $"f"] /\
    argus_parse (H := libc0) a argv = Ok (Returned 0, a') /\
    (exists x, argus_get a' (Some ($"depth")) = Ok (x, a') /\ as_int64 x = Ok 0) /\
    (exists x, argus_get a' (Some ($"num")) = Ok (x, a') /\ as_int64 x = Ok 7).
Proof.
  exists rules_ctx, [$"-d"; $"abc"; $"-n"; $"7up"; $"f"],
    (ran libc0 rules_ctx [$"-d"; $"abc"; $"-n"; $"7up"; $"f"]).
  split; [exact rules_fresh|]. split; [done|]. split; [vm_compute; reflexivity|].
  split; eexists; (split; [vm_compute; reflexivity|vm_compute; reflexivity]).
Qed.
Print Assumptions C17_garbage_refuted.

(** Any text: the value is that of the integer the text begins with, 0 if there is none. *)
Theorem C17_any_text `{Libc} a argv a' its1 its2 t i s T d p :
  fresh a -> argus_parse a argv = Ok (Returned 0, a') ->
  assigned a argv (its1 ++ Call t i (Some s) :: its2) ->
  (forall x, x ∈ its2 -> ~ touches t i x) ->
  decls a !! t = Some T -> T !! i = Some d -> d_handler d = Some HInt ->
  find_option_by_active_path a' p = Ok (Some (t, i)) ->
  exists n x, leading s n /\ (forall m, leading s m -> m = n) /\ argus_get a' p = Ok (x, set_err a' 0) /\
    as_int64 x = Ok (saturated n).
Proof. exact (any_text_last a argv a' its1 its2 t i s T d p). Qed.
Print Assumptions C17_any_text.
Example C17_any_example :
  leading ($" -7up") (-7) /\ leading ($"abc") 0 /\ leading ($"- 5") 0 /\
  exists n x, leading ($"3") n /\ argus_get (ran env1 rules_ctx line1) (Some ($"num")) =
    Ok (x, set_err (ran env1 rules_ctx line1) 0) /\ as_int64 x = Ok (saturated n).
Proof.
  split; [apply leading_raw; reflexivity|]. split; [apply leading_raw; reflexivity|].
  split; [apply leading_raw; reflexivity|].
  destruct (C17_any_text (H := env1) rules_ctx line1 (ran env1 rules_ctx line1)
    [Call 0 1 (Some ($"me")); Call 0 2 (Some ($"x")); Call 0 4 None; Call 0 9 (Some ($"7"))]
    [Call 0 13 (Some ($"f.txt")); Call 0 11 (Some ($"Yes"))] 0 9 ($"3")
    (map decl_of (default [] (ex_rules !! 0%nat))) (decl_of (opt_at rules_ctx 0 9)) (Some ($"num"))
    rules_fresh run1 assigned1) as (n & x & L & _ & Hx & Hi); try reflexivity; [untouched|].
  exists n, x. exact (conj L (conj Hx Hi)).
Qed.

(** ** C19 *)
Theorem C19_words act w b s `{Libc} :
  (bool_word w b ->
     run_handler act HBool (Some w) s = Ok (0, Hst (with_value (h_opt s) (of_bool b)) (h_heap s) (h_log s))) /\
  ((forall b', ~ bool_word w b') ->
     run_handler act HBool (Some w) s = Ok (12, Hst (h_opt s) (h_heap s) (h_log s ++ [EDiag 12 [MText $"Invalid boolean value: '"; MStr (Some w); MText $"'. Expected 'true' or 'false'"]]))) /\
  (bool_word w true -> ~ bool_word w false).
Proof.
  exact (conj (fun Hw => scalar_runs HBool (Some w) act s (of_bool b) (dn_bool w b Hw))
    (conj (bool_refused w act s) (fun Ht Hf => diff_true_false (bool_word_fun w true false Ht Hf)))).
Qed.
Print Assumptions C19_words.

(** After success the option holds the truth value of the last word given. *)
Theorem C19_bool `{Libc} a argv a' its1 its2 t i w T d p :
  fresh a -> argus_parse a argv = Ok (Returned 0, a') ->
  assigned a argv (its1 ++ Call t i (Some w) :: its2) ->
  (forall x, x ∈ its2 -> ~ touches t i x) ->
  decls a !! t = Some T -> T !! i = Some d -> d_handler d = Some HBool ->
  find_option_by_active_path a' p = Ok (Some (t, i)) ->
  exists x b, argus_get a' p = Ok (x, set_err a' 0) /\ bool_word w b /\ as_bool x = Ok b.
Proof. exact (bool_last a argv a' its1 its2 t i w T d p). Qed.
Print Assumptions C19_bool.

(** Any other word is refused and changes nothing but the error code. *)
Theorem C19_refused `{Libc} a t i w o :
  get_option a t i = Ok o -> d_handler (decl_of o) = Some HBool ->
  d_validators (decl_of o) = None -> well_stacked a -> (forall b, ~ bool_word w b) ->
  exists a', execute_callbacks a t i (Some w) = Ok (12, a') /\ a_tabs a' = a_tabs a /\
    a_heap a' = a_heap a /\ a_err a' = 12.
Proof. exact (bool_call_refused a t i w o). Qed.
Print Assumptions C19_refused.

Example C19_example :
  bool_word ($"yEs") true /\ (forall b, ~ bool_word ($"maybe") b) /\
  (exists x, argus_get (ran env1 rules_ctx line1) (Some ($"color-mode")) =
    Ok (x, set_err (ran env1 rules_ctx line1) 0) /\ as_bool x = Ok true) /\
  argus_parse (H := libc0) rules_ctx [$"-c"; $"maybe"; $"f"] =
    Ok (Returned 12, ran libc0 rules_ctx [$"-c"; $"maybe"; $"f"]).
Proof.
  split; [apply string_to_bool_word; reflexivity|].
  split; [intros b Hb; apply string_to_bool_word in Hb; vm_compute in Hb; discriminate Hb|].
  split; [|vm_compute; reflexivity].
  destruct (C19_bool (H := env1) rules_ctx line1 (ran env1 rules_ctx line1)
    [Call 0 1 (Some ($"me")); Call 0 2 (Some ($"x")); Call 0 4 None; Call 0 9 (Some ($"7"));
     Call 0 9 (Some ($"3")); Call 0 13 (Some ($"f.txt"))] [] 0 11 ($"Yes")
    (map decl_of (default [] (ex_rules !! 0%nat))) (decl_of (opt_at rules_ctx 0 11)) (Some ($"color-mode"))
    rules_fresh run1 assigned1) as (x & b & Hx & Hw & Hb); try reflexivity.
  - untouched.
  - exists x. split; [done|]. apply string_to_bool_word in Hw. vm_compute in Hw. injection Hw as <-. done.
Qed.

(** ** C21 *)
Theorem C21_required_set `{Libc} a argv a' t i o :
  fresh a -> argus_parse a argv = Ok (Returned 0, a') ->
  in_play a' t -> entry a' t i o -> required_positional o -> is_set o = true.
Proof. exact (required_set a argv a' t i o). Qed.
Print Assumptions C21_required_set.

(** The status is that of the first problem found when going through the tables in play: 14 for a
    missing positional or requirement, 15 for a conflict, 17 for an exclusive group, the
    validator's own status for a refused value. *)
Theorem C21_first_problem `{Libc} a argv its a2 c o a' :
  fresh a -> assigned a argv its -> perform a its = Ok (0, a2) -> first_problem a2 c ->
  argus_parse a argv = Ok (o, a') -> o = Returned c /\ c <> 0.
Proof. exact (parse_first_problem a argv its a2 c o a'). Qed.
Print Assumptions C21_first_problem.

Example C21_example :
  (exists o, entry (ran env1 rules_ctx line1) 0 13 o /\ required_positional o /\ is_set o = true) /\
  (assigned (H := libc0) rules_ctx [$"--fast"] (all_items libc0 rules_ctx [$"--fast"]) /\
   first_problem (checked libc0 rules_ctx [$"--fast"]) 14 /\
   argus_parse (H := libc0) rules_ctx [$"--fast"] = Ok (Returned 14, ran libc0 rules_ctx [$"--fast"])).
Proof.
  split.
  - exists (opt_at (ran env1 rules_ctx line1) 0 13).
    assert (Hr : required_positional (opt_at (ran env1 rules_ctx line1) 0 13)) by (vm_compute; done).
    assert (He : entry (ran env1 rules_ctx line1) 0 13 (opt_at (ran env1 rules_ctx line1) 0 13)) by at_entry.
    split; [done|]. split; [done|]. eapply (C21_required_set (H := env1)); [exact rules_fresh|exact run1| |done|done].
    by left.
  - split_and!.
    + apply all_assigned; [exact rules_fresh|]. vm_compute. reflexivity.
    + apply failing_check; [exact rules_fresh|vm_compute; reflexivity..|done].
    + vm_compute. reflexivity.
Qed.

(** The required flag of an option that is not positional is not looked at. *)
Definition ex_req : list (list opt) := [[HELP_OPTION; OPTION_STRING "o" (Some ($"out")) [hlp; FLAGS FLAG_REQUIRED]]].
Theorem C21_required_option_refuted :
  argus_init (H := libc0) 3 ex_req 0 0 = Ok (Some (make_argus ex_req 0 None), O) /\
  exists a' o, argus_parse (H := libc0) (make_argus ex_req 0 None) [] = Ok (Returned 0, a') /\
    in_play a' 0 /\ entry a' 0 1 o /\ flag 0 o /\ is_set o = false.
Proof.
  split; [vm_compute; reflexivity|].
  exists (ran libc0 (make_argus ex_req 0 None) []), (opt_at (ran libc0 (make_argus ex_req 0 None) []) 0 1).
  split; [vm_compute; reflexivity|]. split; [by left|]. split; [at_entry|]. vm_compute. done.
Qed.
Print Assumptions C21_required_option_refuted.

(** ** C22 *)
Theorem C22_requirements `{Libc} a argv a' t i o T n j p :
  fresh a -> argus_parse a argv = Ok (Returned 0, a') ->
  in_play a' t -> entry a' t i o -> is_set o = true -> ~ group_entry o ->
  a_tabs a' !! t = Some T -> first (named n) T j -> T !! j = Some p ->
  (n ∈ default [] (d_require (decl_of o)) -> is_set p = true) /\
  (n ∈ default [] (d_conflict (decl_of o)) -> is_set p = false).
Proof. exact (requirements_met a argv a' t i o T n j p). Qed.
Print Assumptions C22_requirements.

Example C22_example :
  is_set (opt_at (ran env1 rules_ctx line1) 0 2) = true /\
  (first_problem (checked libc0 rules_ctx [$"-u"; $"me"; $"f"]) 14 /\
   argus_parse (H := libc0) rules_ctx [$"-u"; $"me"; $"f"] =
     Ok (Returned 14, ran libc0 rules_ctx [$"-u"; $"me"; $"f"])) /\
  (first_problem (checked libc0 rules_ctx [$"-la"; $"f"]) 15 /\
   argus_parse (H := libc0) rules_ctx [$"-la"; $"f"] = Ok (Returned 15, ran libc0 rules_ctx [$"-la"; $"f"])).
Proof.
  split_and!.
  - eapply (C22_requirements (H := env1) rules_ctx line1 _ 0 1 (opt_at (ran env1 rules_ctx line1) 0 1)
      (default [] (a_tabs (ran env1 rules_ctx line1) !! 0%nat)) ($"password") 2);
      [exact rules_fresh|exact run1|by left|at_entry|vm_compute; reflexivity|vm_compute; done|
       vm_compute; reflexivity| |vm_compute; reflexivity|].
    + apply find_name_Some. vm_compute. reflexivity.
    + apply elem_of_list_singleton. reflexivity.
  - apply failing_check; [exact rules_fresh|vm_compute; reflexivity..|done].
  - vm_compute. reflexivity.
  - apply failing_check; [exact rules_fresh|vm_compute; reflexivity..|done].
  - vm_compute. reflexivity.
Qed.

(** ** C23 *)
Theorem C23_one_member `{Libc} a argv a' t T g G i j o p :
  fresh a -> argus_parse a argv = Ok (Returned 0, a') ->
  in_play a' t -> a_tabs a' !! t = Some T -> T !! g = Some G -> exclusive_group G ->
  member T g i -> member T g j -> T !! i = Some o -> T !! j = Some p ->
  is_set o = true -> is_set p = true -> i = j.
Proof. exact (one_member a argv a' t T g G i j o p). Qed.
Print Assumptions C23_one_member.

Example C23_example : let a' := ran env1 rules_ctx line1 in
  (exists T G, a_tabs a' !! 0%nat = Some T /\ T !! 3%nat = Some G /\ exclusive_group G /\
     member T 3 4 /\ member T 3 5 /\ ~ member T 3 7 /\
     is_set (opt_at a' 0 4) = true /\ is_set (opt_at a' 0 5) = false) /\
  (first_problem (checked libc0 rules_ctx [$"-fs"; $"x"]) 17 /\
   argus_parse (H := libc0) rules_ctx [$"-fs"; $"x"] = Ok (Returned 17, ran libc0 rules_ctx [$"-fs"; $"x"])).
Proof.
  cbv zeta. split; [|split].
  - eexists _, _. split; [vm_compute; reflexivity|]. split; [reflexivity|]. split; [split; vm_compute; done|].
    split_and!; try reflexivity.
    + split; [lia|]. intros k o Hk Ho. assert (k = 4%nat) as -> by lia. injection Ho as <-. vm_compute. done.
    + split; [lia|]. intros k o Hk Ho. assert (k = 4%nat \/ k = 5%nat) as [-> | ->] by lia; injection Ho as <-; vm_compute; done.
    + intros [_ Hx]. apply (Hx 6%nat GROUP_END); [lia|reflexivity|reflexivity].
  - apply failing_check; [exact rules_fresh|vm_compute; reflexivity..|done].
  - vm_compute. reflexivity.
Qed.

(** ** C24 *)
Theorem C24_post_validators `{Libc} a argv a' t i o e :
  fresh a -> argus_parse a argv = Ok (Returned 0, a') ->
  in_play a' t -> entry a' t i o -> is_set o = true -> ~ group_entry o ->
  e ∈ validators (decl_of o) -> v_order e = ORDER_POST -> accepts_option (v_fun e) o (a_heap a').
Proof. exact (validators_accept a argv a' t i o e). Qed.
Print Assumptions C24_post_validators.

Theorem C24_pre_validators `{Libc} a argv a' its t i v T d e :
  fresh a -> argus_parse a argv = Ok (Returned 0, a') -> assigned a argv its ->
  Call t i v ∈ its -> decls a !! t = Some T -> T !! i = Some d ->
  e ∈ validators d -> v_order e = ORDER_PRE -> accepts_text (v_fun e) v.
Proof. exact (texts_accepted a argv a' its t i v T d e). Qed.
Print Assumptions C24_pre_validators.

Example C24_example :
  (exists x, as_int (value (opt_at (ran env1 rules_ctx line1) 0 9)) = Ok x /\ 1 <= x <= 10) /\
  (argus_parse (H := libc0) rules_ctx [$"-r"; $"ab"; $"f"] = Ok (Returned 0, ran libc0 rules_ctx [$"-r"; $"ab"; $"f"]) /\
   accepts_text (H := libc0) (VRegex (Some ($"ab")) (Some ($"hint"))) (Some ($"ab"))) /\
  argus_parse (H := libc0) rules_ctx [$"-r"; $"abc"; $"f"] =
    Ok (Returned 29, ran libc0 rules_ctx [$"-r"; $"abc"; $"f"]).
Proof.
  split_and!.
  - eapply (C24_post_validators (H := env1) rules_ctx line1 _ 0 9 (opt_at (ran env1 rules_ctx line1) 0 9)
      (V_RANGE 1 10)); [exact rules_fresh|exact run1|by left|at_entry|vm_compute; reflexivity|vm_compute; done| |reflexivity].
    vm_compute. left.
  - vm_compute. reflexivity.
  - eapply (C24_pre_validators (H := libc0) rules_ctx [$"-r"; $"ab"; $"f"] (ran libc0 rules_ctx [$"-r"; $"ab"; $"f"])
      (all_items libc0 rules_ctx [$"-r"; $"ab"; $"f"]) 0 12 _ (map decl_of (default [] (ex_rules !! 0%nat)))
      (decl_of (opt_at rules_ctx 0 12)) (V_REGEX (Some ($"ab")) (Some ($"hint"))));
      [exact rules_fresh|vm_compute; reflexivity| | |reflexivity|reflexivity| |reflexivity].
    + apply all_assigned; [exact rules_fresh|]. vm_compute. reflexivity.
    + vm_compute. left.
    + vm_compute. left.
  - vm_compute. reflexivity.
Qed.

(** ** C25 *)
Theorem C25_range `{Libc} lo hi o h n :
  value o = of_int64 n -> - 2 ^ 31 <= n < 2 ^ 31 ->
  exists st ev, run_validator (VRange lo hi) (ArgOption o) h = Ok (st, ev) /\ (st = 0 <-> lo <= n <= hi).
Proof. exact (range_decides lo hi o h n). Qed.
Print Assumptions C25_range.
Theorem C25_choice_int `{Libc} l o h n :
  value o = of_int64 n -> - 2 ^ 31 <= n < 2 ^ 31 ->
  exists st ev, run_validator (VChoicesInt l) (ArgOption o) h = Ok (st, ev) /\ (st = 0 <-> n ∈ l).
Proof. exact (choice_int_decides l o h n). Qed.
Print Assumptions C25_choice_int.
(** Any integer: what counts is the part that fits in 32 bits. *)
Theorem C25_range_any `{Libc} lo hi o h n m :
  value o = of_int64 n -> low_half n m ->
  exists st ev, run_validator (VRange lo hi) (ArgOption o) h = Ok (st, ev) /\ (st = 0 <-> lo <= m <= hi).
Proof. exact (range_low lo hi o h n m). Qed.
Print Assumptions C25_range_any.
Theorem C25_choice_any `{Libc} l o h n m :
  value o = of_int64 n -> low_half n m ->
  exists st ev, run_validator (VChoicesInt l) (ArgOption o) h = Ok (st, ev) /\ (st = 0 <-> m ∈ l).
Proof. exact (choice_low l o h n m). Qed.
Print Assumptions C25_choice_any.
Example C25_any_example : low_half 4294967301 5 /\ low_half (-2147483649) 2147483647.
Proof. split; (split; [lia|]); [by exists 1|by exists (-1)]. Qed.
Theorem C25_length `{Libc} lo hi o h s :
  value o = PLit s ->
  exists st ev, run_validator (VLength lo hi) (ArgOption o) h = Ok (st, ev) /\
    (st = 0 <-> 0 <= lo /\ lo <= Z.of_nat (length s) <= hi).
Proof. exact (length_decides lo hi o h s). Qed.
Print Assumptions C25_length.
Theorem C25_count `{Libc} lo hi o h :
  exists st ev, run_validator (VCount lo hi) (ArgOption o) h = Ok (st, ev) /\
    (st = 0 <-> 0 <= lo /\ lo <= Z.of_nat (value_count o) <= hi).
Proof. exact (count_decides lo hi o h). Qed.
Print Assumptions C25_count.
Theorem C25_choice_string `{Libc} l o h s :
  value o = PLit s ->
  exists st ev, run_validator (VChoicesStr l) (ArgOption o) h = Ok (st, ev) /\ (st = 0 <-> s ∈ l).
Proof. exact (choice_str_decides l o h s). Qed.
Print Assumptions C25_choice_string.

Example C25_example :
  let o := opt_at (ran env1 rules_ctx line1) 0 9 in let u := opt_at (ran env1 rules_ctx line1) 0 1 in
  value o = of_int64 3 /\ value u = PLit ($"me") /\
  (exists st ev, run_validator (H := env1) (VRange 4 9) (ArgOption o) fresh_heap = Ok (st, ev) /\ st <> 0) /\
  (exists st ev, run_validator (H := env1) (VChoicesInt [1; 3]) (ArgOption o) fresh_heap = Ok (st, ev) /\ st = 0) /\
  (exists st ev, run_validator (H := env1) (VLength 2 2) (ArgOption u) fresh_heap = Ok (st, ev) /\ st = 0) /\
  (exists st ev, run_validator (H := env1) (VCount 1 1) (ArgOption u) fresh_heap = Ok (st, ev) /\ st = 0) /\
  (exists st ev, run_validator (H := env1) (VChoicesStr [$"you"; $"me"]) (ArgOption u) fresh_heap = Ok (st, ev) /\ st = 0).
Proof.
  cbv zeta. split_and!; try (vm_compute; reflexivity);
    (eexists _, _; split; [vm_compute; reflexivity|done]).
Qed.

(** A value outside 32 bits is judged by its low 32 bits. *)
Theorem C25_range_refuted :
  exists a' x, argus_parse (H := libc0) rules_ctx [$"-n"; $"4294967301"; $"f"] = Ok (Returned 0, a') /\
    argus_get a' (Some ($"num")) = Ok (x, a') /\ as_int64 x = Ok 4294967301 /\
    validators (decl_of (opt_at rules_ctx 0 9)) = [V_RANGE 1 10].
Proof.
  eexists _, _. split; [vm_compute; reflexivity|]. split; [vm_compute; reflexivity|]. vm_compute. done.
Qed.
Print Assumptions C25_range_refuted.

(** A range on a floating-point option looks at the low half of its bits: 2.5 is not between
    1 and 10, but it is between -1 and 1. *)
Definition ex_float r : list (list opt) :=
  [[HELP_OPTION; OPTION_FLOAT "q" (Some ($"quality")) [hlp; VALIDATOR [r]]]].
Theorem C25_range_float_refuted :
  argus_init (H := libc0) 3 (ex_float (V_RANGE 1 10)) 0 0 = Ok (Some (make_argus (ex_float (V_RANGE 1 10)) 0 None), O) /\
  (exists a', argus_parse (H := libc0) (make_argus (ex_float (V_RANGE 1 10)) 0 None) [$"-q"; $"2.5"] = Ok (Returned 19, a')) /\
  (exists a', argus_parse (H := libc0) (make_argus (ex_float (V_RANGE (-1) 1)) 0 None) [$"-q"; $"2.5"] = Ok (Returned 0, a')).
Proof. split; [vm_compute; reflexivity|]. split; eexists; vm_compute; reflexivity. Qed.
Print Assumptions C25_range_float_refuted.

(** ** C26 *)
Theorem C26_default `{Libc} a argv a' its t i p base m1 d m2 :
  fresh a -> argus_parse a argv = Ok (Returned 0, a') ->
  reads (decls a) (a_root a) 0 false argv its -> (forall x, x ∈ its -> ~ touches t i x) ->
  entry a t i (with_mods base (m1 ++ DEFAULT d :: m2)) -> Forall no_default m2 ->
  from_env (a_prefix a) (with_mods base (m1 ++ DEFAULT d :: m2)) = None ->
  find_option_by_active_path a' p = Ok (Some (t, i)) -> (forall b, d <> DFloat b) ->
  exists x, argus_get a' p = Ok (x, set_err a' 0) /\ reads_default d x.
Proof. exact (default_kept a argv a' its t i p base m1 d m2). Qed.
Print Assumptions C26_default.

(** The hypothesis about the environment holds without the override flag. *)
Theorem C26_no_environment `{Libc} prefix base m1 d m2 :
  Forall no_default m2 ->
  N.testbit (d_flags (decl_of (with_mods base (m1 ++ DEFAULT d :: m2)))) 6 = false ->
  from_env prefix (with_mods base (m1 ++ DEFAULT d :: m2)) = None.
Proof. exact (default_no_env prefix base m1 d m2). Qed.
Print Assumptions C26_no_environment.

Example C26_example : exists x, argus_get (ran env1 rules_ctx line1) (Some ($"depth")) =
  Ok (x, set_err (ran env1 rules_ctx line1) 0) /\ as_int64 x = Ok 5 /\ as_int x = Ok 5.
Proof.
  destruct (C26_default (H := env1) rules_ctx line1 (ran env1 rules_ctx line1) (plan_of rules_ctx line1) 0 10
    (Some ($"depth")) (blank TOption (Some ($"depth")) "d" (Some ($"depth")) VT_INT (Some FDefault) 0 None)
    [HANDLER HInt; hlp] (DInt 5) [ENV_VAR ($"DEPTH")]) as (x & Hx & H1 & H2).
  - exact rules_fresh.
  - exact run1.
  - apply plan_reads_of, rules_fresh.
  - intros x Hx. vm_compute in Hx. revert Hx. generalize x. untouched.
  - eapply entry_at; reflexivity.
  - repeat constructor; done.
  - apply (C26_no_environment (H := env1)); [|reflexivity]. repeat constructor; done.
  - vm_compute. reflexivity.
  - done.
  - exists x. split; [done|]. split; [apply H1|apply H2]; lia.
Qed.

(** DEFAULT(1.5) of a floating-point option reads as 5e-324. *)
Definition ex_fdef : list (list opt) :=
  [[HELP_OPTION; OPTION_FLOAT "q" (Some ($"quality")) [hlp; DEFAULT (DFloat bits_1_5)]]].
Theorem C26_float_refuted :
  argus_init (H := libc0) 3 ex_fdef 0 0 = Ok (Some (make_argus ex_fdef 0 None), O) /\
  exists a' x, argus_parse (H := libc0) (make_argus ex_fdef 0 None) [] = Ok (Returned 0, a') /\
    argus_get a' (Some ($"quality")) = Ok (x, a') /\ as_float x = Ok 1 /\ 1 <> bits_1_5.
Proof.
  split; [vm_compute; reflexivity|]. eexists _, _. split; [vm_compute; reflexivity|].
  split; [vm_compute; reflexivity|]. vm_compute. done.
Qed.
Print Assumptions C26_float_refuted.

(** ** C27 *)
Theorem C27_is_set `{Libc} a argv a' its t i o o' :
  fresh a -> argus_parse a argv = Ok (Returned 0, a') -> assigned a argv its ->
  entry a t i o -> entry a' t i o' ->
  is_set o' = true <-> is_set o = true \/ exists x, x ∈ its /\ touches t i x.
Proof. exact (marks a argv a' its t i o o'). Qed.
Print Assumptions C27_is_set.

(** What argus_is_set returns is that mark. *)
Theorem C27_access a p t i o :
  find_option_by_active_path a p = Ok (Some (t, i)) -> entry a t i o ->
  argus_get a p = Ok (value o, set_err a 0) /\ argus_is_set a p = Ok (is_set o) /\
  argus_count a p = Ok (value_count o).
Proof. exact (found_access a p t i o). Qed.
Print Assumptions C27_access.

Example C27_example : let a' := ran env1 rules_ctx line1 in
  is_set (opt_at a' 0 1) = true /\ is_set (opt_at a' 0 8) = false /\
  argus_is_set a' (Some ($"user")) = Ok true.
Proof.
  cbv zeta.
  assert (Ho : forall i, (i < 14)%nat -> entry rules_ctx 0 i (opt_at rules_ctx 0 i)) by (intros; apply opt_at_entry; done).
  assert (Ho' : forall i, (i < 14)%nat -> entry (ran env1 rules_ctx line1) 0 i (opt_at (ran env1 rules_ctx line1) 0 i)).
  { intros. apply opt_at_entry. vm_compute length. done. }
  assert (H1 : is_set (opt_at (ran env1 rules_ctx line1) 0 1) = true).
  { rewrite (C27_is_set (H := env1) rules_ctx line1 _ _ 0 1 _ _ rules_fresh run1 assigned1
      (Ho 1%nat ltac:(lia)) (Ho' 1%nat ltac:(lia))).
    right. exists (Call 0 1 (Some ($"me"))). split; [left|]. left. eauto. }
  split; [done|]. split.
  - apply not_true_iff_false. rewrite (C27_is_set (H := env1) rules_ctx line1 _ _ 0 8 _ _ rules_fresh run1 assigned1
      (Ho 8%nat ltac:(lia)) (Ho' 8%nat ltac:(lia))).
    intros [Hx|(x & Hx & Ht)]; [done|]. revert Ht. revert x Hx. untouched.
  - destruct (C27_access (ran env1 rules_ctx line1) (Some ($"user")) 0 1 _ ltac:(vm_compute; reflexivity)
      (Ho' 1%nat ltac:(lia))) as (_ & -> & _). by rewrite H1.
Qed.

(** The documentation promises false for an option that only has its default. *)
Theorem C27_default_refuted :
  exists a', argus_parse (H := libc0) rules_ctx [$"f"] = Ok (Returned 0, a') /\
    assigned (H := libc0) rules_ctx [$"f"] [Call 0 13 (Some ($"f"))] /\
    argus_is_set a' (Some ($"depth")) = Ok true.
Proof.
  eexists. split; [vm_compute; reflexivity|]. split; [|vm_compute; reflexivity].
  replace [Call 0 13 (Some ($"f"))] with (all_items libc0 rules_ctx [$"f"]) by (vm_compute; reflexivity).
  apply all_assigned; [exact rules_fresh|]. vm_compute. reflexivity.
Qed.
Print Assumptions C27_default_refuted.

(** ** C28 *)
Theorem C28_command_line `{Libc} a argv a' its1 its2 t i v T d f :
  fresh a -> argus_parse a argv = Ok (Returned 0, a') ->
  reads (decls a) (a_root a) 0 false argv (its1 ++ Call t i v :: its2) ->
  (forall x, x ∈ its2 -> ~ touches t i x) ->
  decls a !! t = Some T -> T !! i = Some d -> d_handler d = Some f -> scalar f ->
  N.testbit (d_flags d) 6 = false ->
  exists x o', denoted f v x /\ entry a' t i o' /\ value o' = x.
Proof. exact (command_line_wins a argv a' its1 its2 t i v T d f). Qed.
Print Assumptions C28_command_line.

Theorem C28_environment `{Libc} a argv a' its t i o f n v :
  fresh a -> argus_parse a argv = Ok (Returned 0, a') ->
  reads (decls a) (a_root a) 0 false argv its ->
  in_play a' t -> entry a t i o -> d_handler (decl_of o) = Some f -> scalar f ->
  d_type (decl_of o) = TOption \/ d_type (decl_of o) = TPositional ->
  env_variable (a_prefix a) (decl_of o) = Some n -> getenv n = Some v ->
  flag 6 o \/ (is_set o = false /\ forall x, x ∈ its -> ~ touches t i x) ->
  exists x o', denoted f (Some v) x /\ entry a' t i o' /\ value o' = x.
Proof. exact (environment_wins a argv a' its t i o f n v). Qed.
Print Assumptions C28_environment.

Theorem C28_neither `{Libc} a argv a' its t i o :
  fresh a -> argus_parse a argv = Ok (Returned 0, a') ->
  reads (decls a) (a_root a) 0 false argv its -> (forall x, x ∈ its -> ~ touches t i x) ->
  entry a t i o -> from_env (a_prefix a) o = None -> entry a' t i o.
Proof. exact (not_supplied a argv a' its t i o). Qed.
Print Assumptions C28_neither.

Example C28_example :
  (exists o', entry (ran env1 rules_ctx line1) 0 2 o' /\ value o' = PLit ($"x")) /\
  (exists o', entry (ran env1 rules_ctx [$"-u"; $"me"; $"f"]) 0 2 o' /\ value o' = PLit ($"secret")) /\
  entry (ran libc0 rules_ctx [$"-d"; $"4"; $"f"]) 0 2 (opt_at rules_ctx 0 2).
Proof.
  split_and!.
  - destruct (C28_command_line (H := env1) rules_ctx line1 (ran env1 rules_ctx line1)
      [Call 0 1 (Some ($"me"))] [Call 0 4 None; Call 0 9 (Some ($"7")); Call 0 9 (Some ($"3"));
       Call 0 13 (Some ($"f.txt"))] 0 2 (Some ($"x"))
      (map decl_of (default [] (ex_rules !! 0%nat))) (decl_of (opt_at rules_ctx 0 2)) HString
      rules_fresh run1) as (x & o' & Hx & Ho & Hv); try reflexivity.
    + exact (plan_reads_of rules_ctx line1 rules_fresh).
    + untouched.
    + unfold scalar. auto.
    + exists o'. split; [done|]. rewrite Hv, (denoted_fun _ _ _ _ Hx (dn_string _)). done.
  - destruct (C28_environment (H := env1) rules_ctx [$"-u"; $"me"; $"f"] (ran env1 rules_ctx [$"-u"; $"me"; $"f"])
      (plan_of rules_ctx [$"-u"; $"me"; $"f"]) 0 2 (opt_at rules_ctx 0 2) HString ($"APP_PASSWORD") ($"secret"))
      as (x & o' & Hx & Ho & Hv); try (vm_compute; reflexivity).
    + exact rules_fresh.
    + apply plan_reads_of, rules_fresh.
    + by left.
    + at_entry.
    + unfold scalar. auto.
    + by left.
    + right. split; [reflexivity|]. intros x Hx. vm_compute in Hx. revert Hx. generalize x. untouched.
    + exists o'. split; [done|]. rewrite Hv, (denoted_fun _ _ _ _ Hx (dn_string _)). done.
  - apply (C28_neither (H := libc0) rules_ctx [$"-d"; $"4"; $"f"] _ (plan_of rules_ctx [$"-d"; $"4"; $"f"]));
      try (vm_compute; reflexivity).
    + exact rules_fresh.
    + apply plan_reads_of, rules_fresh.
    + intros x Hx. vm_compute in Hx. revert Hx. generalize x. untouched.
    + at_entry.
Qed.

(** A default suppresses the environment: DEPTH is set to 9, the option keeps 5. *)
Theorem C28_default_suppresses_refuted :
  env_variable (a_prefix rules_ctx) (decl_of (opt_at rules_ctx 0 10)) = Some ($"APP_DEPTH") /\
  getenv (Libc := env1) ($"APP_DEPTH") = Some ($"9") /\
  exists a' x, argus_parse (H := env1) rules_ctx [$"f"] = Ok (Returned 0, a') /\
    argus_get a' (Some ($"depth")) = Ok (x, a') /\ as_int64 x = Ok 5.
Proof.
  split; [vm_compute; reflexivity|]. split; [vm_compute; reflexivity|].
  eexists _, _. split; [vm_compute; reflexivity|]. split; [vm_compute; reflexivity|]. vm_compute. reflexivity.
Qed.
Print Assumptions C28_default_suppresses_refuted.

(** ** C29 *)
Theorem C29_variable_name prefix d : get_env_var_name prefix d = env_variable prefix d.
Proof. exact (eq_sym (env_variable_eq prefix d)). Qed.
Print Assumptions C29_variable_name.

(** Derived names have no lower-case letters and no '-'. *)
Theorem C29_derived_upper prefix d n : d_env_name d = None -> get_env_var_name prefix d = Some n ->
  forall c, c ∈ n -> c ∉ lower_chars.
Proof. exact (derived_upper prefix d n). Qed.
Print Assumptions C29_derived_upper.

Example C29_example :
  get_env_var_name (Some ($"APP")) (decl_of (opt_at rules_ctx 0 11)) = Some ($"APP_COLOR_MODE") /\
  get_env_var_name (Some ($"APP")) (decl_of (opt_at rules_ctx 0 2)) = Some ($"APP_PASSWORD") /\
  get_env_var_name (Some ($"PASS")) (decl_of (opt_at rules_ctx 0 2)) = Some ($"PASSWORD") /\
  get_env_var_name (Some ($"APP_")) (decl_of (opt_at rules_ctx 0 2)) = Some ($"APP_PASSWORD").
Proof. vm_compute. done. Qed.

(** A long prefixed name is cut, so another variable is consulted. *)
Definition long_env : cstr := replicate 130 "A"%char.
Theorem C29_long_name_refuted :
  let d := decl_of (OPTION_STRING "o" (Some ($"out")) [hlp; ENV_VAR long_env]) in
  get_env_var_name (Some ($"P")) d <> Some ($"P_" ++ long_env) /\
  get_env_var_name (Some ($"P")) d = Some ($"P_" ++ take 125 long_env).
Proof. cbv zeta. split; [|vm_compute; reflexivity]. intros E. apply (f_equal (fun x => length (default [] x))) in E.
  vm_compute in E. discriminate E. Qed.
Print Assumptions C29_long_name_refuted.

(** ** C30 *)
Theorem C30_bare_name a n :
  well_stacked a -> "."%char ∉ n ->
  exists res, find_option_by_active_path a (Some n) = Ok res /\
    forall t i, res = Some (t, i) <-> finds_inside a n t i.
Proof. exact (bare_name a n). Qed.
Print Assumptions C30_bare_name.

Theorem C30_root a n :
  well_stacked a ->
  exists res, find_option_by_active_path a (Some ("."%char :: n)) = Ok res /\
    forall t i, res = Some (t, i) <-> t = a_root a /\ finds a t n i.
Proof. exact (root_path a n). Qed.
Print Assumptions C30_root.

(** Components need only begin the names of the selected subcommands. *)
Theorem C30_dotted a c cs n :
  well_stacked a -> "."%char ∉ n -> (forall x, x ∈ c :: cs -> "."%char ∉ x) -> c <> [] ->
  exists res, find_option_by_active_path a (Some (dotted (c :: cs) n)) = Ok res /\
    forall t i, res = Some (t, i) <->
      (forall k x, (c :: cs) !! k = Some x -> exists m, selected_name a k m /\ x `prefix_of` m) /\
      tables_in_play a !! length (c :: cs) = Some t /\ finds a t n i.
Proof. exact (dotted_path a c cs n). Qed.
Print Assumptions C30_dotted.

(** A successful parse leaves the context in the state these theorems ask for. *)
Theorem C30_after_parse `{Libc} a argv a' :
  fresh a -> argus_parse a argv = Ok (Returned 0, a') -> well_stacked a'.
Proof. exact (success_well_stacked a argv a'). Qed.
Print Assumptions C30_after_parse.

(** Unknown options read as zero, with error 22. *)
Theorem C30_unknown a p :
  find_option_by_active_path a p = Ok None ->
  argus_get a p = Ok (VNull, set_err a 22) /\ argus_is_set a p = Ok false /\ argus_count a p = Ok 0%nat.
Proof. exact (unknown_access a p). Qed.
Print Assumptions C30_unknown.

Example C30_example : let a' := ran libc0 ex_tree_ctx [$"-v"; $"start"; $"-o"; $"x"; $"w"] in
  well_stacked a' /\ tables_in_play a' = [0; 1]%nat /\
  find_option_by_active_path a' (Some ($"output")) = Ok (Some (1, 1)%nat) /\
  find_option_by_active_path a' (Some ($"help")) = Ok (Some (1, 0)%nat) /\
  find_option_by_active_path a' (Some ($".help")) = Ok (Some (0, 0)%nat) /\
  find_option_by_active_path a' (Some ($"start.output")) = Ok (Some (1, 1)%nat) /\
  find_option_by_active_path a' (Some ($"status.quiet")) = Ok None /\
  selected_name a' 0 ($"start") /\ dotted [$"start"] ($"output") = $"start.output".
Proof.
  cbv zeta. split; [|split_and!; try (vm_compute; reflexivity)].
  - apply (C30_after_parse (H := libc0) ex_tree_ctx [$"-v"; $"start"; $"-o"; $"x"; $"w"]); [exact tree_fresh|].
    vm_compute. reflexivity.
  - exists (0, 2)%nat. eexists _, _. vm_compute. split_and!; reflexivity.
Qed.

(** A wrong component that begins the selected name is accepted. *)
Theorem C30_prefix_refuted :
  exists a', argus_parse (H := libc0) ex_tree_ctx [$"start"; $"w"] = Ok (Returned 0, a') /\
    find_option_by_active_path a' (Some ($"s.what")) = Ok (Some (1, 2)%nat) /\
    ~ selected_name a' 0 ($"s").
Proof.
  eexists. split; [vm_compute; reflexivity|]. split; [vm_compute; reflexivity|].
  intros (r & T & d & H1 & H2 & H3 & H4). vm_compute in H1. injection H1 as <-. vm_compute in H2.
  injection H2 as <-. vm_compute in H3. injection H3 as <-. vm_compute in H4. done.
Qed.
Print Assumptions C30_prefix_refuted.

(** ** C33 *)
Theorem C33_exec `{Libc} act a argv a' its :
  fresh a -> argus_parse a argv = Ok (Returned 0, a') ->
  reads (decls a) (a_root a) 0 false argv its ->
  match last (entered its) with
  | None => argus_exec act a' = Ok (21, add_log a' [ECommands])
  | Some r => exists T d, decls a !! fst r = Some T /\ T !! snd r = Some d /\ d_type d = TSubcommand /\
      argus_exec act a' = match d_action d with
                          | Some f => Ok (act f, add_log a' [EAction f])
                          | None => Ok (4, add_log a' [ECommands])
                          end
  end.
Proof. exact (exec_selected act a argv a' its). Qed.
Print Assumptions C33_exec.

Example C33_example : let a' := ran libc0 ex_tree_ctx [$"status"] in
  last (entered (plan_of ex_tree_ctx [$"status"])) = Some (0, 3)%nat /\
  argus_exec (fun _ => 42) a' = Ok (42, add_log a' [EAction 8]) /\
  argus_exec (fun _ => 42) (ran libc0 ex_tree_ctx []) = Ok (21, add_log (ran libc0 ex_tree_ctx []) [ECommands]).
Proof. vm_compute. done. Qed.

(** ** C37 *)
Theorem C37_success `{Libc} a argv a' :
  fresh a -> argus_parse a argv = Ok (Returned 0, a') -> a_err a' = 0.
Proof. exact (success_err a argv a'). Qed.
Print Assumptions C37_success.

(** Errors found while reading the command line. *)
Theorem C37_reading `{Libc} a argv its c a1 :
  fresh a -> reads (decls a) (a_root a) 0 false argv its ->
  perform a its = Ok (c, a1) -> c <> 0 -> c <> 1 ->
  forall o a', argus_parse a argv = Ok (o, a') -> o = Returned c /\ a_err a' = c.
Proof. exact (reading_error a argv its c a1). Qed.
Print Assumptions C37_reading.

(** Errors found by the final checks. *)
Theorem C37_checking `{Libc} a argv its a2 c o a' :
  fresh a -> assigned a argv its -> perform a its = Ok (0, a2) -> first_problem a2 c ->
  (forall t i o, entry a2 t i o -> only_builtin o) ->
  argus_parse a argv = Ok (o, a') -> o = Returned c /\ a_err a' = c.
Proof. exact (checking_error a argv its a2 c o a'). Qed.
Print Assumptions C37_checking.

Example C37_example :
  a_err (ran env1 rules_ctx line1) = 0 /\
  argus_parse (H := libc0) rules_ctx [$"--nope"] = Ok (Returned 12, ran libc0 rules_ctx [$"--nope"]) /\
  a_err (ran libc0 rules_ctx [$"--nope"]) = 12 /\
  (first_problem (checked libc0 rules_ctx [$"-n"; $"77"; $"f"]) 19 /\
   argus_parse (H := libc0) rules_ctx [$"-n"; $"77"; $"f"] = Ok (Returned 19, ran libc0 rules_ctx [$"-n"; $"77"; $"f"]) /\
   a_err (ran libc0 rules_ctx [$"-n"; $"77"; $"f"]) = 19).
Proof.
  split; [vm_compute; reflexivity|]. split; [vm_compute; reflexivity|]. split; [vm_compute; reflexivity|].
  split; [|split; vm_compute; reflexivity].
  apply failing_check; [exact rules_fresh|vm_compute; reflexivity..|done].
Qed.

(** A user validator run after parsing: its status is returned, the error code stays 0. *)
Definition ex_user : list (list opt) :=
  [[HELP_OPTION; OPTION_INT "n" (Some ($"num")) [hlp; VALIDATOR [VEntry (VCustomPost (fun _ _ => 29)) ORDER_POST]]]].
Theorem C37_user_validator_refuted :
  exists a', argus_parse (H := libc0) (make_argus ex_user 0 None) [$"-n"; $"3"] = Ok (Returned 29, a') /\ a_err a' = 0.
Proof. eexists. split; [vm_compute; reflexivity|]. vm_compute. reflexivity. Qed.
Print Assumptions C37_user_validator_refuted.

(** An exit option triggered by the environment: status 1 is returned as an error, error code 0. *)
Definition ex_exit_env : list (list opt) :=
  [[HELP_OPTION; OPTION_FLAG "x" (Some ($"stop")) [hlp; ENV_VAR ($"STOP"); FLAGS FLAG_EXIT]]].
Theorem C37_exit_by_environment_refuted :
  exists a', argus_parse (H := libc_env [($"STOP", $"1")]) (make_argus ex_exit_env 0 None) [] = Ok (Returned 1, a') /\
    a_err a' = 0.
Proof. eexists. split; [vm_compute; reflexivity|]. vm_compute. reflexivity. Qed.
Print Assumptions C37_exit_by_environment_refuted.
