(** * What the help shows can be typed: property C78 *)
From Coq Require Import Lia.
From Verif Require GrammarLemmas.
From Verif Require Import Macros Validate Api LibProofs SpecGrammar GrammarProofs SpecAfter SpecValues AfterFacts MoreFacts
  SpecStructure StructProofs SpecRequest RequestProofs SpecCollections SpecHelp DisplayFacts SpecTrust TrustProofs
  ExLib ExDisplay ExAfter ExGrammar PropsDisplay PropsRequest SpecAfter.

(** ** Names *)

(** The help screen of a table shows every name of every option that is not hidden, and typing a
    name that is shown gives that option, behind any words that lead to the table.  ([a0] is the context as argus_init returned it, [a] the
    same or a later one.) *)
Theorem C78_option `{Libc, Printf} p a0 a command t T names s :
  accepted a0 -> decls a = decls a0 -> reachable (decls a0) (a_root a0) t ->
  printf_ok -> good_config (p_config p) -> showable_table (a_prefix a) T ->
  fitting_table (p_config p) (a_prefix a) T -> selected a names ->
  match command with Some c => c = t | None => get_active_options a = Ok (Some t) end ->
  table_ptr (Some t) a = Ok T -> oom (s_heap s) = [] ->
  exists u h', display_help p a command s = Shown (tt, Dst (s_out s ++ u) h') /\
    forall i o, T !! i = Some o -> visible o = true ->
      (forall n, d_lname (decl_of o) = Some n -> appears ($"--" ++ n) u) /\
      (d_sname (decl_of o) <> Ascii.zero -> appears ["-"%char; d_sname (decl_of o)] u) /\
      forall k v ws rest its, typed (decl_of o) v ws -> (v = None <-> flag_option (decl_of o)) ->
        reads (decls a0) t k false rest its ->
        reads (decls a0) t k false (ws ++ rest) (Call t i v :: its) /\
        forall pre its0, reached a0 pre t (map decl_of T) k false its0 ->
          parse_args a0 (Some (a_root a0)) 0 false (pre ++ ws ++ rest) = perform a0 (its0 ++ Call t i v :: its).
Proof.
  intros h1 h2 h3 h4 h5 h6 h7 h8 h9 h10 h11.
  destruct (names_shown p a0 a command t T names s h1 h2 h3 h4 h5 h6 h7 h8 h9 h10 h11) as (u & h' & E & C).
  exists u, h'. split; [exact E|]. intros i o Hi Hv. destruct (C i o Hi Hv) as (C1 & C2 & C3).
  split; [exact C1|]. split; [exact C2|]. intros k v ws rest its Hw Hf Hr.
  pose proof (C3 k v ws rest its Hw Hf Hr) as R. split; [exact R|].
  intros pre its0 Hp. exact (GrammarLemmas.reached_parse _ _ _ _ _ _ _ _ _ Hp R).
Qed.
Print Assumptions C78_option.

(** Likewise the names of subcommands; typing one selects it if no subcommand declared before has a
    name that begins with it, and it does not begin with '-'. *)
Theorem C78_command `{Libc, Printf} p a0 a command t T names s :
  decls a = decls a0 ->
  printf_ok -> good_config (p_config p) -> showable_table (a_prefix a) T ->
  fitting_table (p_config p) (a_prefix a) T -> selected a names ->
  match command with Some c => c = t | None => get_active_options a = Ok (Some t) end ->
  table_ptr (Some t) a = Ok T -> oom (s_heap s) = [] ->
  exists u h', display_help p a command s = Shown (tt, Dst (s_out s ++ u) h') /\
    forall i o n t', T !! i = Some o -> d_type (decl_of o) = TSubcommand -> d_name (decl_of o) = Some n ->
      d_sub (decl_of o) = Some t' ->
      appears n u /\
      (no_dash n -> not_hidden (map decl_of T) i n -> forall k rest its, reads (decls a0) t' 0 false rest its ->
        reads (decls a0) t k false (n :: rest) (Enter t i :: its) /\
        forall pre its0, reached a0 pre t (map decl_of T) k false its0 ->
          parse_args a0 (Some (a_root a0)) 0 false (pre ++ n :: rest) = perform a0 (its0 ++ Enter t i :: its)).
Proof.
  intros h2 h4 h5 h6 h7 h8 h9 h10 h11.
  destruct (commands_shown p a0 a command t T names s h2 h4 h5 h6 h7 h8 h9 h10 h11) as (u & h' & E & C).
  exists u, h'. split; [exact E|]. intros i o n t' Hi Ht Hn Hs. destruct (C i o n t' Hi Ht Hn Hs) as (C1 & C2).
  split; [exact C1|]. intros Hd Hh k rest its Hr. pose proof (C2 Hd Hh k rest its Hr) as R. split; [exact R|].
  intros pre its0 Hp. exact (GrammarLemmas.reached_parse _ _ _ _ _ _ _ _ _ Hp R).
Qed.
Print Assumptions C78_command.

Definition T_help_decls : list decl := map decl_of T_help.
Lemma help_accepted : accepted (H := libc0) ex_help_ctx.
Proof. exists 4%nat, ex_help, 0%nat, (Some ($"APP")). split; [exact ex_help_ok|done]. Qed.
(** The table of C44: "--port 81" gives the option shown as "--port", "-v" the one shown as "-v". *)
Example C78_option_example : exists u h',
  display_help (H := libc0) (H0 := printf0) ex_program ex_help_ctx None (Dst [] heap0) = Shown (tt, Dst ([] ++ u) h') /\
  appears ($"--port") u /\ appears ($"-v") u /\ appears ($"run") u /\
  reads (decls ex_help_ctx) 0 0 false [$"--port"; $"81"; $"-v"; $"run"; $"x"]
    [Call 0 2 (Some ($"81")); Call 0 8 None; Enter 0 9; Call 1 1 (Some ($"x"))].
Proof.
  destruct (C78_option (H := libc0) (H0 := printf0) ex_program ex_help_ctx ex_help_ctx None 0 T_help [] (Dst [] heap0))
    as (u & h' & E & C); [exact help_accepted|done|by left|apply printf0_ok|split; [cbn; lia|reflexivity]|
      apply showable_tableb_ok; vm_compute; reflexivity|apply fitting_tableb_ok; vm_compute; reflexivity|constructor|
      vm_compute; reflexivity|reflexivity|reflexivity|].
  destruct (C78_command (H := libc0) (H0 := printf0) ex_program ex_help_ctx ex_help_ctx None 0 T_help [] (Dst [] heap0))
    as (u2 & h2 & E2 & C2); [done|apply printf0_ok|split; [cbn; lia|reflexivity]|
      apply showable_tableb_ok; vm_compute; reflexivity|apply fitting_tableb_ok; vm_compute; reflexivity|constructor|
      vm_compute; reflexivity|reflexivity|reflexivity|].
  rewrite E in E2. assert (Eu : u2 = u) by (inversion E2; done). subst u2. exists u, h'.
  destruct (C 2%nat _ eq_refl eq_refl) as (Hp & _ & Tp). destruct (C 8%nat _ eq_refl eq_refl) as (_ & Hv & Tv).
  destruct (C2 9%nat _ ($"run") 1%nat eq_refl eq_refl eq_refl eq_refl) as [Hr Tr].
  split; [exact E|]. split; [by apply Hp|]. split; [by apply Hv|]. split; [exact Hr|].
  apply (Tp 0%nat (Some ($"81")) [$"--port"; $"81"] [$"-v"; $"run"; $"x"]).
  { apply (ty_long_separate _ ($"port")); [done|]. split; [apply not_in_dec; reflexivity|apply Nat.leb_le; reflexivity]. }
  { split; [done|]. intros F. by vm_compute in F. }
  apply (Tv 0%nat None [$"-v"] [$"run"; $"x"]).
  { apply ty_letter. split; [discriminate|apply not_in_dec; reflexivity]. }
  { split; [done|]. intros _. reflexivity. }
  apply Tr; [discriminate| |].
  { intros j e r Hj He Ht. do 9 (destruct j as [|j]; [injection He as <-; done|]). lia. }
  eapply r_word; [reflexivity|discriminate| | |apply r_end].
  - intros e He [Ht _]. repeat (apply elem_of_cons in He as [->|He]; [done|]). by apply elem_of_nil in He.
  - apply dpos_Some. vm_compute. reflexivity.
Qed.

(** The help also shows options and subcommands that nothing typed can give: "--a=b", and "add"
    declared after "add-all". *)
Theorem C78_option_refuted : exists u h',
  display_help (H := libc0) (H0 := printf0) ex_program unnamed_ctx None (Dst [] heap0) = Shown (tt, Dst u h') /\
  accepted (H := libc0) unnamed_ctx /\ appears ($"--a=b") u /\ appears ($"add  ") u /\
  (forall argv its v, Forall (fun w => Ascii.zero ∉ w) argv -> (reads (decls unnamed_ctx) 0 0 false argv its -> Call 0 1 v ∉ its) /\
    exists its', parse_args (H := libc0) unnamed_ctx (Some 0%nat) 0 false argv = perform (H := libc0) unnamed_ctx its' /\ Call 0 1 v ∉ its') /\
  (~ exists w, no_dash w /\ selects unnamed_decls w 4) /\
  ~ exists w, no_dash w /\ find_subcommand (default [] (ex_unnamed !! 0%nat)) w = SubFound 4.
Proof.
  set (R := display_help (H := libc0) (H0 := printf0) ex_program unnamed_ctx None (Dst [] heap0)).
  set (u := match R with Shown (_, s) => s_out s | _ => [] end).
  set (h' := match R with Shown (_, s) => s_heap s | _ => heap0 end).
  exists u, h'. split; [vm_compute; reflexivity|]. split; [exact unnamed_accepted|].
  split; [apply appearsb_ok; vm_compute; reflexivity|]. split; [apply appearsb_ok; vm_compute; reflexivity|].
  destruct C75_options_refuted as (_ & _ & N1). destruct C75_subcommands_refuted as (_ & _ & N2).
  split; [intros argv its v; apply N1; by left|apply N2; by left].
Qed.
Print Assumptions C78_option_refuted.

(** ** Defaults *)

(** The description shows the default, and whoever types what it shows gets the value that the
    program would have got without it (integers read as int, booleans, strings). *)
Theorem C78_default `{Libc, Printf} c a argv a' its1 its2 t i o w p :
  fresh a -> argus_parse a argv = Ok (Returned 0, a') ->
  assigned a argv (its1 ++ Call t i (Some w) :: its2) -> (forall x, x ∈ its2 -> ~ touches t i x) ->
  entry a t i o -> has_default (decl_of o) = true -> showable (a_prefix a) (decl_of o) ->
  simple_type (decl_of o) -> default_shown (decl_of o) w ->
  find_option_by_active_path a' p = Ok (Some (t, i)) ->
  appears ($" (default: " ++ default_value (decl_of o)) (description c (a_prefix a) (decl_of o)) /\
  exists x, argus_get a' p = Ok (x, set_err a' 0) /\ same_to_program (decl_of o) x (d_default (decl_of o)).
Proof. exact (default_end_to_end c a argv a' its1 its2 t i o w p). Qed.
Print Assumptions C78_default.

(** "--port=80": the help says "(default: 80". *)
Definition port_line : list cstr := [$"-v"; $"--port=80"].
Example C78_default_example :
  (exists x, argus_get (ran libc0 ex_help_ctx port_line) (Some ($"port")) =
     Ok (x, set_err (ran libc0 ex_help_ctx port_line) 0) /\ as_int x = Ok 80) /\
  default_shown (H := libc0) (H0 := printf0) (decl_of (opt_at ex_help_ctx 0 2)) ($"80") /\
  (forall d w, d = decl_of (OPTION_STRING "m" None [DEFAULT (DString ($"fast"))]) ->
     default_shown (H := libc0) (H0 := printf0) d w -> w = $"fast").
Proof.
  split; [|split; [reflexivity|]].
  - destruct (C78_default (H := libc0) (H0 := printf0) default_config ex_help_ctx port_line (ran libc0 ex_help_ctx port_line)
      [Call 0 8 None] [] 0 2 (opt_at ex_help_ctx 0 2) ($"80") (Some ($"port"))) as (_ & x & Hx & Hs & _).
    + apply freshb_ok. vm_compute. reflexivity.
    + vm_compute. reflexivity.
    + change ([Call 0 8 None] ++ [Call 0 2 (Some ($"80"))]) with (all_items libc0 ex_help_ctx port_line).
      apply all_assigned; [apply freshb_ok; vm_compute; reflexivity|]. vm_compute. reflexivity.
    + intros x Hx. by apply elem_of_nil in Hx.
    + apply opt_at_entry. apply Nat.ltb_lt. vm_compute. reflexivity.
    + reflexivity.
    + apply showableb_ok. vm_compute. reflexivity.
    + left. done.
    + reflexivity.
    + vm_compute. reflexivity.
    + exists x. split; [exact Hx|]. rewrite (Hs eq_refl). reflexivity.
  - intros d w -> Hw. unfold default_shown in Hw. cbn in Hw. inversion Hw as [Hw'].
    apply (app_inj_tail ($"fast") w) in Hw' as [<- _]. done.
Qed.

(** Read as a 64-bit integer the value differs: a default of 2^32 + 5 is shown as 5. *)
Definition ex_wide : list (list opt) :=
  [[HELP_OPTION; OPTION_INT "n" (Some ($"num")) [hlp; DEFAULT (DInt 4294967301)];
    OPTION_INT "c" (Some ($"size")) [hlp; VALIDATOR [VEntry (VChoicesInt [4294967301; 7]) ORDER_POST]]]].
Definition wide_ctx : argus := make_argus ex_wide 0 None.
Definition parsed_wide (argv : list cstr) : argus :=
  match argus_parse (H := libc0) wide_ctx argv with Ok (_, a') => a' | UB _ => wide_ctx end.
Definition got_wide (argv : list cstr) : uval :=
  match argus_get (parsed_wide argv) (Some ($"num")) with Ok (x, _) => x | UB _ => Indet end.
Theorem C78_wide_default_refuted :
  accepted (H := libc0) wide_ctx /\
  (exists u h', display_help (H := libc0) (H0 := printf0) ex_program wide_ctx None (Dst [] heap0) = Shown (tt, Dst u h') /\
     appears ($"(default: 5)") u) /\
  (exists a' x, argus_parse (H := libc0) wide_ctx [] = Ok (Returned 0, a') /\
     argus_get a' (Some ($"num")) = Ok (x, a') /\ as_int64 x = Ok 4294967301) /\
  (exists a' x, argus_parse (H := libc0) wide_ctx [$"--num=5"] = Ok (Returned 0, a') /\
     argus_get a' (Some ($"num")) = Ok (x, a') /\ as_int64 x = Ok 5).
Proof.
  split; [exists 3%nat, ex_wide, 0%nat, None; split; [vm_compute; reflexivity|done]|].
  split.
  - set (R := display_help (H := libc0) (H0 := printf0) ex_program wide_ctx None (Dst [] heap0)).
    set (u := match R with Shown (_, s) => s_out s | _ => [] end).
    set (h' := match R with Shown (_, s) => s_heap s | _ => heap0 end).
    exists u, h'. split; [vm_compute; reflexivity|apply appearsb_ok; vm_compute; reflexivity].
  - split.
    + exists (parsed_wide []), (got_wide []). split; [vm_compute; reflexivity|]. split; vm_compute; reflexivity.
    + exists (parsed_wide [$"--num=5"]), (got_wide [$"--num=5"]). split; [vm_compute; reflexivity|]. split; vm_compute; reflexivity.
Qed.
Print Assumptions C78_wide_default_refuted.

(** ** Choices and ranges *)

(** The words of a choice or range validator stand in the head of the option or in its description;
    they name every choice and both limits; and every text they offer is let through when typed. *)
Theorem C78_offered `{Libc, Printf} c prefix d v g w :
  v ∈ default [] (d_validators d) -> d_vtype d <> VT_FLAG -> offered (v_fun v) g w ->
  (exists words, validator_words v = Some words /\
     (appears words (option_head c d) \/ appears words (description c prefix d)) /\
     match v_fun v with
     | VRange lo hi => words = decimal_text lo ++ $"-" ++ decimal_text hi
     | _ => appears w words
     end) /\
  (forall x o h, denoted g (Some w) x -> value o = x ->
     exists ev, run_validator (v_fun v) (ArgOption o) h = Ok (0, ev)).
Proof. exact (offered_ok c prefix d v g w). Qed.
Print Assumptions C78_offered.
Example C78_offered_example :
  let d := decl_of (opt_at ex_help_ctx 0 4) in
  offered (VChoicesStr [$"fast"; $"slow"; $"automatic"; $"never"]) HString ($"slow") /\
  appears ($"slow") (description (H := libc0) (H0 := printf0) default_config None d) /\
  offered (VRange 1 65535) HInt ($"8080").
Proof.
  split; [constructor; apply (bool_decide_eq_true_1 _); reflexivity|].
  split; [apply appearsb_ok; vm_compute; reflexivity|].
  apply (of_range 1 65535 8080); [lia|unfold in_32_bits; lia].
Qed.

(** A choice of more than 32 bits is shown and refused. *)
Theorem C78_wide_choice_refuted :
  accepted (H := libc0) wide_ctx /\
  (exists u h', display_help (H := libc0) (H0 := printf0) ex_program wide_ctx None (Dst [] heap0) = Shown (tt, Dst u h') /\
     appears ($"4294967301|7") u) /\
  (exists a', argus_parse (H := libc0) wide_ctx [$"--size=4294967301"] = Ok (Returned 18, a')).
Proof.
  split; [exists 3%nat, ex_wide, 0%nat, None; split; [vm_compute; reflexivity|done]|].
  split.
  - set (R := display_help (H := libc0) (H0 := printf0) ex_program wide_ctx None (Dst [] heap0)).
    set (u := match R with Shown (_, s) => s_out s | _ => [] end).
    set (h' := match R with Shown (_, s) => s_heap s | _ => heap0 end).
    exists u, h'. split; [vm_compute; reflexivity|apply appearsb_ok; vm_compute; reflexivity].
  - eexists. vm_compute. reflexivity.
Qed.
Print Assumptions C78_wide_choice_refuted.
