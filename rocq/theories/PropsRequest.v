(** * Property C75: what can be asked for on a command line *)
From Verif Require Import Validate Api LibProofs SpecGrammar GrammarProofs GrammarLemmas SpecAfter WholeProofs
  SpecStructure StructProofs SpecRequest RequestProofs MoreFacts ExLib ExGrammar ExAfter ExStructure GrammarFacts.

(** Whatever a user may want of an accepted program can be written as a command line, and parsing
    that line does what was wanted. *)
Theorem C75_every_request `{Libc} a its :
  accepted a -> no_strays (decls a) (a_root a) -> request (decls a) (a_root a) its ->
  exists argv, reads (decls a) (a_root a) 0 false argv its /\
    parse_args a (Some (a_root a)) 0 false argv = perform a its.
Proof.
  intros Ha Hns Hq. destruct (request_line a Ha _ _ Hq (or_introl eq_refl)) as [argv Hr].
  exists argv. split; [done|]. destruct (accepted_ready a Ha Hns) as [_ _ HR HS _ _].
  exact (argus_parse_perform a argv its HS HR Hr).
Qed.
Print Assumptions C75_every_request.

(** Conversely, an option without a short name whose long name contains '=' or is longer than 63
    characters is never given by a command line. *)
Theorem C75_never_given `{Libc} a argv its t T i d v :
  Forall (fun w => Ascii.zero ∉ w) argv ->
  reads (decls a) (a_root a) 0 false argv its ->
  decls a !! t = Some T -> T !! i = Some d -> d_type d = TOption ->
  d_sname d = Ascii.zero -> (forall n, d_lname d = Some n -> ~ typeable n) ->
  Call t i v ∉ its.
Proof. exact (no_name a argv its t T i d v). Qed.
Print Assumptions C75_never_given.

(** Hence parsing never runs its handler: what parse_args does with a line has no call for it. *)
Theorem C75_never_run `{Libc} a argv t T i d : accepted a -> no_strays (decls a) (a_root a) ->
  Forall (fun w => Ascii.zero ∉ w) argv ->
  decls a !! t = Some T -> T !! i = Some d -> d_type d = TOption ->
  d_sname d = Ascii.zero -> (forall n, d_lname d = Some n -> ~ typeable n) ->
  exists its, parse_args a (Some (a_root a)) 0 false argv = perform a its /\ forall v, Call t i v ∉ its.
Proof.
  intros Ha Hns Hz HT Hi Ht Hs Hl. destruct (accepted_ready a Ha Hns) as [_ _ HR HS _ _].
  destruct (reads_exists_unique (decls a) (a_root a) 0 false argv HS HR) as (its & Hr & _).
  exists its. split; [exact (argus_parse_perform a argv its HS HR Hr)|].
  intros v. exact (no_name a argv its t T i d v Hz Hr HT Hi Ht Hs Hl).
Qed.
Print Assumptions C75_never_run.

(** Some word selects a subcommand if and only if no earlier subcommand has a name beginning with
    its name, and its name does not begin with '-' or it is the only subcommand (which the empty
    word selects). *)
Theorem C75_enterable `{Libc} a t T i d n :
  accepted a -> reachable (decls a) (a_root a) t -> decls a !! t = Some T ->
  T !! i = Some d -> d_type d = TSubcommand -> d_name d = Some n ->
  ((exists w, no_dash w /\ selects T w i) <-> not_hidden T i n /\ (no_dash n \/ only_subcommand T i)).
Proof. intros Ha Hr HT. apply enterable. by eapply accepted_names. Qed.
Print Assumptions C75_enterable.
(** The same of the search that the program makes. *)
Theorem C75_found `{Libc} a t T i o n :
  accepted a -> reachable (decls a) (a_root a) t -> a_tabs a !! t = Some T ->
  T !! i = Some o -> d_type (decl_of o) = TSubcommand -> d_name (decl_of o) = Some n ->
  ((exists w, no_dash w /\ find_subcommand T w = SubFound i) <->
   not_hidden (map decl_of T) i n /\ (no_dash n \/ only_subcommand (map decl_of T) i)).
Proof.
  intros Ha Hr HT Hi Ht Hn.
  assert (HD : decls a !! t = Some (map decl_of T)) by (unfold decls; by rewrite list_lookup_fmap, HT).
  rewrite <- (C75_enterable a t (map decl_of T) i (decl_of o) n Ha Hr HD) by (try done; by rewrite list_lookup_fmap, Hi).
  split; intros (w & Hw & E); exists w; (split; [done|]); pose proof (dsub_loop_spec (map decl_of T) w) as S.
  - rewrite find_sub_decl in E. rewrite E in S. by inversion S.
  - rewrite find_sub_decl. exact (dsub_spec_fun _ _ _ _ S (ds_found _ _ _ E)).
Qed.
Print Assumptions C75_found.

(** "-v", then subcommand start, there "--output" with an odd text, and an odd text for its positional. *)
Definition odd_request : list item :=
  [Call 0 1 None; Enter 0 2; Call 1 1 (Some ($"--a=b"))] ++ handed 1 (fun _ => 2%nat) 0 [$"-x"].
Example C75_example :
  request (decls ex_tree_ctx) 0 odd_request /\
  (exists argv, parse_args (H := libc0) ex_tree_ctx (Some 0%nat) 0 false argv = perform (H := libc0) ex_tree_ctx odd_request) /\
  parse_args (H := libc0) ex_tree_ctx (Some 0%nat) 0 false [$"--verbose"; $"start"; $"--output=--a=b"; $"--"; $"-x"] =
    perform (H := libc0) ex_tree_ctx odd_request.
Proof.
  assert (Q : request (decls ex_tree_ctx) 0 odd_request).
  { eapply rq_option; [reflexivity|reflexivity|reflexivity| |done|].
    { left. exists ($"verbose"). split; [done|]. split; [apply not_in_dec; reflexivity|apply Nat.leb_le; reflexivity]. }
    eapply (rq_sub _ 0 _ 2 _ ($"start")); [reflexivity|reflexivity|reflexivity|reflexivity|discriminate| |reflexivity|].
    { intros j e r Hj He Hte. destruct j as [|[|j]]; [| |lia]; injection He as <-; done. }
    eapply rq_option; [reflexivity|reflexivity|reflexivity| | |].
    { right. split; [discriminate|apply not_in_dec; reflexivity]. }
    { split; [discriminate|]. intros F. exfalso. by vm_compute in F. }
    eapply rq_words; [reflexivity|]. intros j w Hj. destruct j as [|j]; [|done]. injection Hj as <-.
    split; [|discriminate]. apply dpos_Some. vm_compute. reflexivity. }
  split; [exact Q|]. split; [|vm_compute; reflexivity].
  destruct (C75_every_request (H := libc0) ex_tree_ctx odd_request tree_accepted tree_strays Q) as (argv & _ & E).
  exists argv. exact E.
Qed.

(** Declared options that no command line gives, though the structure check accepts them. *)
Definition long64 : cstr := $"a-long-name-of-sixty-four-characters-0123456789-0123456789-01234".
Definition ex_unnamed : list (list opt) :=
  [[HELP_OPTION; OPTION_FLAG Ascii.zero (Some ($"a=b")) [hlp]; OPTION_FLAG Ascii.zero (Some long64) [hlp];
    SUBCOMMAND (Some ($"add-all")) (Some 1%nat) [hlp; ACTION 7]; SUBCOMMAND (Some ($"add")) (Some 1%nat) [hlp; ACTION 8];
    SUBCOMMAND (Some ($"-del")) (Some 1%nat) [hlp; ACTION 9]];
   [HELP_OPTION]].
Definition unnamed_ctx : argus := make_argus ex_unnamed 0 None.
Definition unnamed_decls : list decl := map decl_of (default [] (ex_unnamed !! 0%nat)).
Lemma unnamed_accepted : accepted (H := libc0) unnamed_ctx.
Proof. exists 3%nat, ex_unnamed, 0%nat, None. split; [vm_compute; reflexivity|done]. Qed.
Lemma unnamed_strays : no_strays (decls unnamed_ctx) 0.
Proof. apply straysb_ok. vm_compute. reflexivity. Qed.
Theorem C75_options_refuted :
  accepted (H := libc0) unnamed_ctx /\
  (forall i, i = 1%nat \/ i = 2%nat -> exists d, unnamed_decls !! i = Some d /\ d_type d = TOption) /\
  forall i, i = 1%nat \/ i = 2%nat -> forall argv its v, Forall (fun w => Ascii.zero ∉ w) argv ->
    (reads (decls unnamed_ctx) 0 0 false argv its -> Call 0 i v ∉ its) /\
    exists its', parse_args (H := libc0) unnamed_ctx (Some 0%nat) 0 false argv = perform (H := libc0) unnamed_ctx its' /\ Call 0 i v ∉ its'.
Proof.
  split; [exact unnamed_accepted|]. split; [intros i [->| ->]; eexists; split; reflexivity|].
  intros i Hi argv its v Hz.
  assert (X : forall its, reads (decls unnamed_ctx) 0 0 false argv its -> Call 0 i v ∉ its).
  2: { split; [apply X|]. destruct (accepted_ready _ unnamed_accepted unnamed_strays) as [_ _ HR HS _ _].
    destruct (reads_exists_unique (decls unnamed_ctx) 0 0 false argv HS HR) as (its' & Hr & _). exists its'.
    split; [exact (argus_parse_perform (H := libc0) unnamed_ctx argv its' HS HR Hr)|exact (X its' Hr)]. }
  clear its. intros its Hr.
  destruct Hi as [->| ->]; eapply (C75_never_given (H := libc0) unnamed_ctx _ _ 0 unnamed_decls); try done;
    intros n [= <-] [He Hl].
  - apply He. apply (bool_decide_eq_true_1 _). reflexivity.
  - apply Nat.leb_le in Hl. vm_compute in Hl. done.
Qed.
Print Assumptions C75_options_refuted.
(** Declared subcommands that no word selects: "add" declared after "add-all", and "-del". *)
Theorem C75_subcommands_refuted :
  accepted (H := libc0) unnamed_ctx /\
  (forall i, i = 4%nat \/ i = 5%nat -> exists d, unnamed_decls !! i = Some d /\ d_type d = TSubcommand) /\
  forall i, i = 4%nat \/ i = 5%nat -> (~ exists w, no_dash w /\ selects unnamed_decls w i) /\
    ~ exists w, no_dash w /\ find_subcommand (default [] (ex_unnamed !! 0%nat)) w = SubFound i.
Proof.
  split; [exact unnamed_accepted|]. split; [intros i [->| ->]; eexists; split; reflexivity|].
  intros i Hi. assert (X : ~ exists w, no_dash w /\ selects unnamed_decls w i).
  2: { split; [exact X|]. intros (w & Hw & E). apply X. exists w. split; [done|]. rewrite find_sub_decl in E.
    pose proof (dsub_loop_spec unnamed_decls w) as S. unfold unnamed_decls in S. rewrite E in S. by inversion S. }
  intros E. destruct Hi as [->| ->].
  - apply (C75_enterable (H := libc0) unnamed_ctx 0 unnamed_decls 4 _ ($"add") unnamed_accepted (or_introl eq_refl)
      eq_refl eq_refl eq_refl eq_refl) in E as [Hh _].
    by apply (Hh 3%nat _ ($"-all") ltac:(lia) eq_refl eq_refl).
  - apply (C75_enterable (H := libc0) unnamed_ctx 0 unnamed_decls 5 _ ($"-del") unnamed_accepted (or_introl eq_refl)
      eq_refl eq_refl eq_refl eq_refl) in E as [_ [Hd|Ho]].
    + by apply (Hd ($"del")).
    + specialize (Ho 3%nat _ eq_refl eq_refl). done.
Qed.
Print Assumptions C75_subcommands_refuted.

(** No line sets the option "a=b", and no word finds "add", in the description above. *)
Example C75_never_run_example :
  exists its, parse_args (H := libc0) unnamed_ctx (Some 0%nat) 0 false [$"--a=b"; $"add-all"] = perform (H := libc0) unnamed_ctx its /\
    forall v, Call 0 1 v ∉ its.
Proof.
  refine (C75_never_run (H := libc0) unnamed_ctx [$"--a=b"; $"add-all"] 0 unnamed_decls 1 _ unnamed_accepted unnamed_strays
    _ eq_refl eq_refl eq_refl eq_refl _).
  - repeat constructor; apply (bool_decide_eq_true_1 _); reflexivity.
  - intros n [= <-] [He _]. apply He. apply (bool_decide_eq_true_1 _). reflexivity.
Qed.
Example C75_found_example :
  (exists w, no_dash w /\ find_subcommand (default [] (ex_unnamed !! 0%nat)) w = SubFound 3) /\
  ~ exists w, no_dash w /\ find_subcommand (default [] (ex_unnamed !! 0%nat)) w = SubFound 4.
Proof.
  split.
  - exists ($"add-all"). split; [by intros ?|]. vm_compute. reflexivity.
  - intros E. apply (C75_found (H := libc0) unnamed_ctx 0 _ 4 _ ($"add") unnamed_accepted (or_introl eq_refl)
      eq_refl eq_refl eq_refl eq_refl) in E as [Hh _].
    by apply (Hh 3%nat _ ($"-all") ltac:(lia) eq_refl eq_refl).
Qed.
