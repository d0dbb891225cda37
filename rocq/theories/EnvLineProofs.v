(** * Variables of the environment and words of the command line *)
From Verif Require Import Validate Api LibProofs FrameProofs SpecGrammar GrammarProofs GrammarLemmas
  ActiveProofs SpecAfter AfterProofs EnvProofs CallProofs WholeProofs SpecEnvironment.
From Coq Require Import Lia.

(** What follows the reading of the command line and the environment. *)
Definition ending `{Libc} (a : argus) : res (outcome * argus) :=
  let* (st, a3) := post_parse_validation a in
  if negb (st =? SUCCESS) then
    let* a4 := argus_free a3 in Ok (Returned st, a4)
  else Ok (Returned SUCCESS, a3).

Lemma parse_ending `{Libc} a argv its a1 a2 :
  fresh a -> reads (decls a) (a_root a) 0 false argv its ->
  perform a its = Ok (0, a1) -> perform a1 (env_items a1) = Ok (0, a2) ->
  argus_parse a argv = ending a2.
Proof.
  intros [Hst Herr HR HS Hac Hnm] Hr Hp Ep.
  unfold argus_parse. rewrite (parse_reads _ _ _ _ _ _ HS HR Hr), Hp. cbn [rbind]. cbv beta iota zeta.
  change (0 =? SHOULD_EXIT) with false. change (0 =? SUCCESS) with true. cbv iota. cbn [negb].
  destruct (parsed_stack a argv its 0 a1 HS HR Hac Hst Hr Hp) as (Q1 & Q2 & Q3 & Q4 & Q5 & Q6 & Q7).
  assert (Herr1 : a_err a1 = 0) by (rewrite (perform_err _ _ _ Hp Q7); done).
  rewrite (set_err_same _ Herr1) in Q1, Q2 |- *.
  assert (HR1 : is_Some (decls a1 !! a_root a1)) by (by rewrite Q3, Q4).
  pose proof (load_env_vars_spec a1 HR1 Q1 Q2) as Henv. rewrite Ep in Henv.
  destruct (load_env_vars a1) as [[st a3]|]; [|done]. cbn in Henv. destruct Henv as [-> ->].
  cbn [rbind]. cbv beta iota. done.
Qed.

Lemma no_calls (L : Libc) prefix t T : forall i, env_calls (H := unset L) prefix t i T = [].
Proof.
  induction T as [|o T IH]; intros i; [done|]. cbn [env_calls]. rewrite IH, app_nil_r.
  assert (E : from_env (H := unset L) prefix o = None).
  { unfold from_env. destruct (d_type _); try done; destruct (_ && _); try done;
      by destruct (env_variable _ _). }
  by rewrite E.
Qed.
Lemma no_items (L : Libc) a : env_items (H := unset L) a = [].
Proof.
  unfold env_items. induction (tables_in_play a) as [|t ts IH]; [done|]. cbn [map concat].
  by rewrite no_calls, IH.
Qed.
Lemma handler_unset (L : Libc) n f v : run_handler (H := unset L) n f v = run_handler (H := L) n f v.
Proof. reflexivity. Qed.
Lemma validators_unset (L : Libc) ord l arg h :
  run_validators (H := unset L) ord l arg h = run_validators (H := L) ord l arg h.
Proof.
  induction l as [|e l IH]; [done|]. cbn [run_validators]. rewrite IH. reflexivity.
Qed.
Lemma execute_unset (L : Libc) a t i v :
  execute_callbacks (H := unset L) a t i v = execute_callbacks (H := L) a t i v.
Proof.
  unfold execute_callbacks. destruct (get_option a t i) as [o|]; [|done]. cbn [rbind].
  destruct (d_handler (decl_of o)) as [f|]; [|done].
  assert (E : match d_validators (decl_of o) with
    | Some l => run_validators (H := unset L) ORDER_PRE l (ArgText v) (a_heap a)
    | None => Ok (SUCCESS, [])
    end = match d_validators (decl_of o) with
    | Some l => run_validators (H := L) ORDER_PRE l (ArgText v) (a_heap a)
    | None => Ok (SUCCESS, [])
    end) by (destruct (d_validators _); [apply validators_unset|done]).
  rewrite E. reflexivity.
Qed.
Lemma perform_unset (L : Libc) its : forall a, perform (H := unset L) a its = perform (H := L) a its.
Proof.
  induction its as [|x its IH]; intros a; [done|]. destruct x as [t i v|t i|c m]; cbn [perform].
  - rewrite execute_unset. destruct (execute_callbacks a t i v) as [[st a']|]; [|done]. cbn [rbind].
    destruct (st =? 0); [apply IH|done].
  - destruct (select a t i); [|done]. cbn [rbind]. apply IH.
  - done.
Qed.
Lemma options_unset (L : Libc) h T l : forall g x f,
  validate_options_set (H := unset L) h T l g x f = validate_options_set (H := L) h T l g x f.
Proof.
  induction l as [|o l IH]; intros g x f; [done|]. cbn [validate_options_set].
  assert (E : call_validators (H := unset L) o h = call_validators (H := L) o h).
  { unfold call_validators. destruct (d_validators _); [apply validators_unset|done]. }
  rewrite E, !IH. reflexivity.
Qed.
Lemma table_unset (L : Libc) a tp : validate_table (H := unset L) a tp = validate_table (H := L) a tp.
Proof. unfold validate_table. destruct (table_ptr tp a); [|done]. cbn [rbind]. by rewrite options_unset. Qed.
Lemma stack_unset (L : Libc) stk : forall a, validate_stack (H := unset L) a stk = validate_stack (H := L) a stk.
Proof.
  induction stk as [|r stk IH]; intros a; [done|]. cbn [validate_stack].
  destruct (sub_of a r) as [s|]; [|done]. cbn [rbind]. rewrite table_unset.
  destruct (validate_table a s) as [[st a']|]; [|done]. cbn [rbind]. by rewrite IH.
Qed.
Lemma ending_unset (L : Libc) a : ending (H := unset L) a = ending (H := L) a.
Proof.
  unfold ending, post_parse_validation. rewrite table_unset.
  destruct (validate_table a _) as [[st a']|]; [|done]. cbn [rbind]. by rewrite stack_unset.
Qed.

(** The parse with the variables and the parse with the words *)
Lemma variables_as_words (L : Libc) a argv argv' its a1 :
  fresh a -> reads (decls a) (a_root a) 0 false argv its -> perform a its = Ok (0, a1) ->
  reads (decls a) (a_root a) 0 false argv' (its ++ env_items a1) ->
  (forall a2, perform a1 (env_items a1) = Ok (0, a2) ->
    argus_parse a argv = argus_parse (H := unset L) a argv') /\
  forall a', argus_parse a argv = Ok (Returned 0, a') <->
    argus_parse (H := unset L) a argv' = Ok (Returned 0, a').
Proof.
  intros F R P R'.
  assert (NR : forall c m, Reject c m ∉ its).
  { destruct F as [Hst Herr HR HS Hac Hnm].
    destruct (parsed_stack a argv its 0 a1 HS HR Hac Hst R P) as (_ & _ & _ & _ & _ & _ & Q). exact Q. }
  assert (PE : forall st a2, perform a1 (env_items a1) = Ok (st, a2) <->
    perform (H := unset L) a (its ++ env_items a1) = Ok (st, a2)).
  { intros st a2. rewrite perform_unset, perform_app by done. rewrite P. done. }
  assert (EQ : forall a2, perform a1 (env_items a1) = Ok (0, a2) ->
    argus_parse a argv = argus_parse (H := unset L) a argv').
  { intros a2 E. rewrite (parse_ending a argv its a1 a2 F R P E).
    rewrite (parse_ending (H := unset L) a argv' (its ++ env_items a1) a2 a2 F R'); [|by apply PE|].
    - symmetry. apply ending_unset.
    - rewrite no_items. done. }
  split; [exact EQ|]. intros a'. split; intros E.
  - destruct (parse_ends a argv _ _ F E) as (its1 & R1 & D).
    assert (its1 = its) as -> by (eapply reads_unique; eauto).
    destruct D as [D|[D|[D|[D|D]]]].
    + destruct D as (? & _ & X & _). done.
    + destruct D as (c & ? & C & _ & _ & X & _). congruence.
    + destruct D as (? & c & ? & ? & _ & C & _ & X & _). congruence.
    + destruct D as (? & c & ? & ? & _ & _ & C & _ & X & _). congruence.
    + destruct D as (b1 & P1 & P2 & _). assert (b1 = a1) as -> by congruence. by rewrite <- (EQ _ P2).
  - destruct (parse_ends (H := unset L) a argv' _ _ F E) as (its1 & R1 & D).
    assert (its1 = its ++ env_items a1) as -> by (eapply reads_unique; eauto).
    destruct D as [D|[D|[D|[D|D]]]].
    + destruct D as (? & _ & X & _). done.
    + destruct D as (c & ? & C & _ & _ & X & _). congruence.
    + destruct D as (? & c & ? & ? & _ & C & _ & X & _). congruence.
    + destruct D as (? & c & ? & ? & _ & _ & C & _ & X & _). congruence.
    + destruct D as (b1 & P1 & P2 & _). apply PE in P1. by rewrite (EQ _ P1).
Qed.

(** … when the only variable belongs to an option that can be named where the line ends *)
Lemma key63_short n : (length n <= 63)%nat -> key63 n = n.
Proof. intros L. unfold key63. by apply take_ge. Qed.
Lemma variable_as_word (L : Libc) a argv t T k its a1 i d n v :
  fresh a -> reached a argv t T k false its -> perform a its = Ok (0, a1) ->
  env_items a1 = [Call t i (Some v)] ->
  T !! i = Some d -> first (long_named n) T i -> ~ flag_option d ->
  "="%char ∉ n -> (length n <= 63)%nat ->
  forall a', argus_parse a argv = Ok (Returned 0, a') <->
    argus_parse (H := unset L) a (argv ++ [$"--" ++ n ++ "="%char :: v]) = Ok (Returned 0, a').
Proof.
  intros F [HS HR HT HL] P E Hd Hf Hn He Hl.
  assert (R : reads (decls a) (a_root a) 0 false argv its).
  { rewrite <- (app_nil_r argv), <- (app_nil_r its). apply (proj1 HL). constructor. }
  apply (variables_as_words L a argv _ its a1 F R P). rewrite E. apply (proj1 HL).
  eapply r_long_equal; eauto; [by rewrite key63_short|]. constructor.
Qed.

Lemma variables_verdict (L : Libc) a argv argv' its a1 c a2 o x o' x' :
  fresh a -> reads (decls a) (a_root a) 0 false argv its -> perform a its = Ok (0, a1) ->
  reads (decls a) (a_root a) 0 false argv' (its ++ env_items a1) ->
  perform a1 (env_items a1) = Ok (c, a2) -> c <> 0 ->
  argus_parse a argv = Ok (o, x) -> argus_parse (H := unset L) a argv' = Ok (o', x') ->
  o = Returned c /\ o' = if c =? 1 then Exited 0 else Returned c.
Proof.
  intros F R P R' P2 C E E'.
  assert (NR : forall c m, Reject c m ∉ its).
  { destruct F as [Hst Herr HR HS Hac Hnm].
    destruct (parsed_stack a argv its 0 a1 HS HR Hac Hst R P) as (_ & _ & _ & _ & _ & _ & Q). exact Q. }
  assert (PE : perform (H := unset L) a (its ++ env_items a1) = Ok (c, a2)).
  { rewrite perform_unset, perform_app by done. rewrite P. done. }
  split.
  - destruct (parse_ends a argv _ _ F E) as (its1 & R1 & D).
    assert (its1 = its) as -> by (eapply reads_unique; eauto).
    destruct D as [D|[D|[D|[D|D]]]].
    + destruct D as (b & X & _). congruence.
    + destruct D as (c1 & b & C1 & _ & X & _). congruence.
    + destruct D as (b & c1 & b2 & b3 & X & _ & Y & -> & _). congruence.
    + destruct D as (b & c1 & b2 & ev & X & Y & _). congruence.
    + destruct D as (b & X & Y & _). congruence.
  - destruct (parse_ends (H := unset L) a argv' _ _ F E') as (its1 & R1 & D).
    assert (its1 = its ++ env_items a1) as -> by (eapply reads_unique; eauto).
    rewrite PE in D. destruct D as [D|[D|[D|[D|D]]]].
    + destruct D as (b & X & -> & _). injection X as -> _. done.
    + destruct D as (c1 & b & C1 & C2 & X & -> & _). injection X as -> _.
      destruct (Z.eqb_spec c1 1); done.
    + destruct D as (b & c1 & b2 & b3 & X & _). congruence.
    + destruct D as (b & c1 & b2 & ev & X & _). congruence.
    + destruct D as (b & X & _). congruence.
Qed.
