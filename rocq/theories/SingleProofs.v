(** * A command line of single values allocates nothing *)
From Verif Require Import Api LibProofs SpecGrammar SpecAfter SpecSafe FrameProofs GrammarProofs GrammarLemmas IsolationProofs
  SpecReuse.
From Coq Require Import Lia.

Section single.
Context `{L : Libc}.
Variable orc : list bool.

Definition hw (h : heap) : heap := Heap (blocks h) orc.
Definition W (a : argus) : argus := with_oracle a orc.
Definition rmap {A B} (f : A -> B) (m : res A) : res B := match m with Ok x => Ok (f x) | UB u => UB u end.
Definition Wz (x : Z * argus) : Z * argus := (fst x, W (snd x)).

(** Everything the parser does with a context besides handlers commutes with [W]. *)
Lemma W_get a t i : get_option (W a) t i = get_option a t i.
Proof. done. Qed.
Lemma W_table a t : table (W a) t = table a t.
Proof. done. Qed.
Lemma W_put a t i o : put_option (W a) t i o = W (put_option a t i o).
Proof. done. Qed.
Lemma W_events l : forall a, apply_events (W a) l = W (apply_events a l).
Proof. induction l as [|e l IH]; intros a; [done|].
  change (apply_events (apply_event (W a) e) l = W (apply_events (apply_event a e) l)). rewrite <- IH. by destruct e.
Qed.
Lemma events_heap l : forall a, a_heap (apply_events a l) = a_heap a.
Proof. induction l as [|e l IH]; intros a; [done|].
  change (a_heap (apply_events (apply_event a e) l) = a_heap a). rewrite IH. by destruct e.
Qed.
Lemma deref_hw v h : deref v (hw h) = deref v h.
Proof. by destruct v. Qed.
Lemma deref_str_hw v h : deref_str v (hw h) = deref_str v h.
Proof. unfold deref_str. by rewrite deref_hw. Qed.
Lemma validator_hw f arg h : run_validator f arg (hw h) = run_validator f arg h.
Proof.
  destruct f, arg; try done; cbn [run_validator]; unfold length_validator, choices_string_validator;
    by rewrite deref_str_hw.
Qed.
Lemma validators_hw ord l arg h : run_validators ord l arg (hw h) = run_validators ord l arg h.
Proof.
  induction l as [|e l IH]; cbn [run_validators]; [done|]. rewrite validator_hw, IH. done.
Qed.

(** ** Handlers for single values *)
Lemma single_runs active f v o h lg : single_handler f ->
  match run_handler active f v (Hst o h lg) with
  | Ok (st, s) => h_heap s = h /\ is_allocated (h_opt s) = is_allocated o /\
      run_handler active f v (Hst o (hw h) lg) = Ok (st, Hst (h_opt s) (hw h) (h_log s))
  | UB u => run_handler active f v (Hst o (hw h) lg) = UB u
  end.
Proof.
  destruct f; cbn; try done; intros _.
  - destruct v as [s|]; cbn; [|done]. destruct (string_to_bool s); done.
  - destruct v; done.
  - destruct v; done.
  - unfold hbind, get_opt. cbn. destruct (f v (value o)). done.
Qed.

Definition ok2 (a a' : argus) : Prop := a_heap a' = a_heap a /\ all_single a'.
Lemma all_single_put a t i o : all_single a -> single_entry o -> all_single (put_option a t i o).
Proof.
  intros HA Ho t' i' o' E. apply get_option_Ok in E. destruct (decide ((t', i') = (t, i))) as [[= -> ->]|N].
  - destruct (get_option a t i) as [x|] eqn:Ex.
    + rewrite (get_put_same _ _ _ _ _ Ex) in E. by injection E as <-.
    + exfalso. revert E Ex. unfold get_option, table, put_option, cell. cbn. rewrite list_lookup_alter.
      destruct (a_tabs a !! t) as [T|]; cbn; [|done]. destruct (T !! i) eqn:Ei; [done|].
      rewrite list_insert_ge by (by apply lookup_ge_None). by rewrite Ei.
  - rewrite get_put_other in E by done. apply (HA t' i'). by apply get_option_Ok.
Qed.
Lemma all_single_tabs a a' : a_tabs a' = a_tabs a -> all_single a -> all_single a'.
Proof. intros E HA t i o (T & HT & Hi). rewrite E in HT. by apply (HA t i o); exists T. Qed.
Lemma single_get a t i o : all_single a -> get_option a t i = Ok o -> single_entry o.
Proof. intros HA E. apply (HA t i). by apply get_option_Ok. Qed.

Lemma execute_single a t i v : all_single a ->
  execute_callbacks (W a) t i v = rmap Wz (execute_callbacks a t i v) /\
  forall st a', execute_callbacks a t i v = Ok (st, a') -> ok2 a a'.
Proof.
  intros HA. unfold execute_callbacks. rewrite W_get. destruct (get_option a t i) as [o|] eqn:Eo; cbn [rbind]; [|done].
  pose proof (single_get _ _ _ _ HA Eo) as [Al Sg].
  destruct (d_handler (decl_of o)) as [f|] eqn:Ef; [|split; [done|intros ? ? [= <- <-]; split; done]].
  specialize (Sg f eq_refl).
  change (a_heap (W a)) with (hw (a_heap a)).
  assert (Ev : (match d_validators (decl_of o) with
                | None => Ok (SUCCESS, [])
                | Some l => run_validators ORDER_PRE l (ArgText v) (hw (a_heap a)) end) =
               (match d_validators (decl_of o) with
                | None => Ok (SUCCESS, [])
                | Some l => run_validators ORDER_PRE l (ArgText v) (a_heap a) end)).
  { destruct (d_validators (decl_of o)); [apply validators_hw|done]. }
  rewrite Ev. clear Ev.
  destruct (match d_validators (decl_of o) with
            | None => Ok (SUCCESS, [])
            | Some l => run_validators ORDER_PRE l (ArgText v) (a_heap a) end) as [[st ev]|]; cbn [rbind]; [|done].
  rewrite W_events. pose proof (events_heap ev a) as Hh. pose proof (apply_events_tabs ev a) as Ht.
  set (a1 := apply_events a ev) in *. clearbody a1.
  assert (HA1 : all_single a1) by (by eapply all_single_tabs).
  destruct (negb (st =? SUCCESS)); [split; [done|intros ? ? [= <- <-]; by split]|].
  change (get_active_options (W a1)) with (get_active_options a1).
  destruct (get_active_options a1) as [act|]; cbn [rbind]; [|done].
  change (a_root (W a1)) with (a_root a1). change (a_heap (W a1)) with (hw (a_heap a1)).
  pose proof (single_runs (default (a_root a1) act) f v o (a_heap a1) [] Sg) as R.
  assert (Kp := keeps_run_handler (default (a_root a1) act) f v (Hst o (a_heap a1) [])).
  destruct (run_handler _ f v (Hst o (a_heap a1) [])) as [[st2 s]|]; cbn [rbind]; [|by rewrite R].
  destruct R as (R1 & R2 & ->). cbn [rbind]. specialize (Kp _ _ eq_refl). cbn [h_opt] in Kp.
  assert (So : single_entry (h_opt s)).
  { split; [congruence|]. rewrite Kp, Ef. by intros ? [= <-]. }
  cbn [h_opt h_heap h_log].
  change (set_heap (put_option (W a1) t i (h_opt s)) (hw (a_heap a1))) with (W (set_heap (put_option a1 t i (h_opt s)) (a_heap a1))).
  rewrite R1. rewrite W_events.
  pose proof (events_heap (h_log s) (set_heap (put_option a1 t i (h_opt s)) (a_heap a1))) as Hh2.
  pose proof (apply_events_tabs (h_log s) (set_heap (put_option a1 t i (h_opt s)) (a_heap a1))) as Ht2.
  set (a2 := apply_events _ (h_log s)) in *. clearbody a2.
  assert (HA2 : all_single a2).
  { eapply all_single_tabs; [exact Ht2|]. apply (all_single_tabs (put_option a1 t i (h_opt s))); [done|].
    by apply all_single_put. }
  cbn in Hh2. rewrite Hh in Hh2.
  destruct (negb (st2 =? SUCCESS)); [split; [done|intros ? ? [= <- <-]; by split]|].
  rewrite W_get. destruct (get_option a2 t i) as [o2|] eqn:E2; cbn [rbind]; [|done].
  pose proof (single_get _ _ _ _ HA2 E2) as S2. rewrite W_put.
  set (o4 := if (value_count (with_set o2 true) =? 0)%nat then with_count (with_set o2 true) 1 else with_set o2 true).
  assert (S4 : single_entry o4) by (unfold o4; destruct (_ =? _)%nat; exact S2).
  destruct (has _ _); (split; [done|intros ? ? [= <- <-]; split; [done|by apply all_single_put]]).
Qed.
Lemma perform_single its : forall a, all_single a ->
  perform (W a) its = rmap Wz (perform a its) /\ forall st a', perform a its = Ok (st, a') -> ok2 a a'.
Proof.
  induction its as [|x its IH]; intros a HA; cbn [perform].
  { split; [done|]. intros ? ? [= <- <-]. by split. }
  destruct x as [t i v|t i|c].
  - destruct (execute_single a t i v HA) as [E1 E2]. rewrite E1.
    destruct (execute_callbacks a t i v) as [[st a1]|]; cbn [rmap rbind Wz fst snd]; [|done].
    destruct (E2 _ _ eq_refl) as [H1 H2]. destruct (st =? 0).
    + destruct (IH a1 H2) as [J1 J2]. split; [done|]. intros st' a' E. apply J2 in E as [K1 K2]. split; [congruence|done].
    + split; [done|]. intros ? ? [= <- <-]. by split.
  - unfold select. rewrite W_get. destruct (get_option a t i) as [o|] eqn:Eo; cbn [rbind]; [|done].
    change (a_stack (W a)) with (a_stack a). destruct (_ <? _)%nat; cbn [rbind]; [|done].
    rewrite W_put.
    set (a1 := set_stack (put_option a t i (with_set o true)) (a_stack a ++ [(t, i)])).
    change (set_stack (W (put_option a t i (with_set o true))) (a_stack a ++ [(t, i)])) with (W a1).
    assert (H2 : all_single a1).
    { apply (all_single_tabs (put_option a t i (with_set o true))); [done|]. apply all_single_put; [done|].
      exact (single_get _ _ _ _ HA Eo). }
    destruct (IH a1 H2) as [J1 J2]. split; [done|]. intros st' a' E. apply J2 in E as [K1 K2]. by split.
  - split; [done|]. intros ? ? [= <- <-]. by split.
Qed.

(** ** The environment *)
Lemma load_from_single n : forall a t i, all_single a ->
  load_env_from (W a) t i n = rmap Wz (load_env_from a t i n) /\
  forall st a', load_env_from a t i n = Ok (st, a') -> ok2 a a'.
Proof.
  induction n as [|n IH]; intros a t i HA; cbn [load_env_from].
  { split; [done|]. intros ? ? [= <- <-]. by split. }
  rewrite W_get. destruct (get_option a t i) as [o|] eqn:Eo; cbn [rbind]; [|done].
  pose proof (single_get _ _ _ _ HA Eo) as [Al Sg].
  destruct (_ || _); [by apply IH|]. destruct (_ && _); [by apply IH|].
  change (a_prefix (W a)) with (a_prefix a).
  destruct (get_env_var_name _ _) as [nm|]; [|by apply IH]. destruct (getenv nm) as [v|]; [|by apply IH].
  destruct (execute_single a t i (Some v) HA) as [E1 E2]. rewrite E1.
  destruct (execute_callbacks a t i (Some v)) as [[st a1]|]; cbn [rmap rbind Wz fst snd]; [|done].
  destruct (E2 _ _ eq_refl) as [H1 H2]. destruct (st =? SUCCESS).
  - destruct (IH a1 t (S i) H2) as [J1 J2]. split; [done|]. intros st' a' E. apply J2 in E as [K1 K2]. split; [congruence|done].
  - destruct (is_set o); [|split; [done|intros ? ? [= <- <-]; by split]].
    rewrite W_get. destruct (get_option a1 t i) as [o'|] eqn:Eo'; cbn [rbind]; [|done].
    split; [done|]. intros ? ? [= <- <-]. split; [done|]. apply all_single_put; [done|].
    exact (single_get _ _ _ _ H2 Eo').
Qed.
Lemma load_single a t : all_single a ->
  load_env (W a) t = rmap Wz (load_env a t) /\ forall st a', load_env a t = Ok (st, a') -> ok2 a a'.
Proof.
  intros HA. unfold load_env. rewrite W_table. destruct (table a t); cbn [rbind]; [|done]. by apply load_from_single.
Qed.
Lemma load_stack_single stk : forall a, all_single a ->
  load_env_stack (W a) stk = rmap Wz (load_env_stack a stk) /\ forall st a', load_env_stack a stk = Ok (st, a') -> ok2 a a'.
Proof.
  induction stk as [|r stk IH]; intros a HA; cbn [load_env_stack].
  { split; [done|]. intros ? ? [= <- <-]. by split. }
  change (sub_of (W a) r) with (sub_of a r). destruct (sub_of a r) as [[t|]|]; cbn [rbind]; [|by apply IH|done].
  destruct (load_single a t HA) as [E1 E2]. rewrite E1.
  destruct (load_env a t) as [[st a1]|]; cbn [rmap rbind Wz fst snd]; [|done].
  destruct (E2 _ _ eq_refl) as [H1 H2]. destruct (st =? SUCCESS).
  - destruct (IH a1 H2) as [J1 J2]. split; [done|]. intros st' a' E. apply J2 in E as [K1 K2]. split; [congruence|done].
  - split; [done|]. intros ? ? [= <- <-]. by split.
Qed.
Lemma load_vars_single a : all_single a ->
  load_env_vars (W a) = rmap Wz (load_env_vars a) /\ forall st a', load_env_vars a = Ok (st, a') -> ok2 a a'.
Proof.
  intros HA. unfold load_env_vars. change (a_root (W a)) with (a_root a).
  destruct (load_single a (a_root a) HA) as [E1 E2]. rewrite E1.
  destruct (load_env a (a_root a)) as [[st a1]|]; cbn [rmap rbind Wz fst snd]; [|done].
  destruct (E2 _ _ eq_refl) as [H1 H2]. destruct (st =? SUCCESS).
  - change (a_stack (W a1)) with (a_stack a1).
    destruct (load_stack_single (a_stack a1) a1 H2) as [J1 J2]. split; [done|].
    intros st' a' E. apply J2 in E as [K1 K2]. split; [congruence|done].
  - split; [done|]. intros ? ? [= <- <-]. by split.
Qed.

(** ** The checks after parsing *)
Lemma set_hw h T l : forall g e f, validate_options_set (hw h) T l g e f = validate_options_set h T l g e f.
Proof.
  induction l as [|o l IH]; intros g e f; cbn [validate_options_set]; [done|].
  destruct (is_type TGroup o); [apply IH|]. destruct (_ && _); [done|]. destruct (is_set o); [|apply IH].
  destruct (_ && _); [done|].
  assert (E : call_validators o (hw h) = call_validators o h).
  { unfold call_validators. destruct (d_validators _); [apply validators_hw|done]. }
  rewrite E. destruct (call_validators o h) as [[st ev]|]; cbn [rbind]; [|done].
  destruct (negb _); [done|]. destruct (match d_require (decl_of o) with
            | Some r => validate_required T (d_name (decl_of o)) r | None => (SUCCESS, []) end) as [st1 ev1].
  destruct (negb _); [done|]. destruct (match d_conflict (decl_of o) with
            | Some c => validate_conflicts T (d_name (decl_of o)) c | None => (SUCCESS, []) end) as [st2 ev2].
  destruct (negb _); [done|]. by rewrite IH.
Qed.
Lemma table_single a tp : all_single a ->
  validate_table (W a) tp = rmap Wz (validate_table a tp) /\ forall st a', validate_table a tp = Ok (st, a') -> ok2 a a'.
Proof.
  intros HA. unfold validate_table. change (table_ptr tp (W a)) with (table_ptr tp a).
  destruct (table_ptr tp a) as [T|]; cbn [rbind]; [|done]. change (a_heap (W a)) with (hw (a_heap a)). rewrite set_hw.
  destruct (validate_options_set _ _ _ _ _ _) as [[st ev]|]; cbn [rbind]; [|done]. rewrite W_events. split; [done|].
  intros ? ? [= <- <-]. split; [apply events_heap|]. eapply all_single_tabs; [apply apply_events_tabs|done].
Qed.
Lemma stack_single stk : forall a, all_single a ->
  validate_stack (W a) stk = rmap Wz (validate_stack a stk) /\ forall st a', validate_stack a stk = Ok (st, a') -> ok2 a a'.
Proof.
  induction stk as [|r stk IH]; intros a HA; cbn [validate_stack].
  { split; [done|]. intros ? ? [= <- <-]. by split. }
  change (sub_of (W a) r) with (sub_of a r). destruct (sub_of a r) as [s|]; cbn [rbind]; [|done].
  destruct (table_single a s HA) as [E1 E2]. rewrite E1.
  destruct (validate_table a s) as [[st a1]|]; cbn [rmap rbind Wz fst snd]; [|done].
  destruct (E2 _ _ eq_refl) as [H1 H2]. destruct (st =? SUCCESS).
  - destruct (IH a1 H2) as [J1 J2]. split; [done|]. intros st' a' E. apply J2 in E as [K1 K2]. split; [congruence|done].
  - split; [done|]. intros ? ? [= <- <-]. by split.
Qed.
Lemma post_single a : all_single a ->
  post_parse_validation (W a) = rmap Wz (post_parse_validation a) /\
  forall st a', post_parse_validation a = Ok (st, a') -> ok2 a a'.
Proof.
  intros HA. unfold post_parse_validation. change (a_root (W a)) with (a_root a).
  destruct (table_single a (Some (a_root a)) HA) as [E1 E2]. rewrite E1.
  destruct (validate_table a (Some (a_root a))) as [[st a1]|]; cbn [rmap rbind Wz fst snd]; [|done].
  destruct (E2 _ _ eq_refl) as [H1 H2]. destruct (st =? SUCCESS).
  - change (a_stack (W a1)) with (a_stack a1).
    destruct (stack_single (a_stack a1) a1 H2) as [J1 J2]. split; [done|].
    intros st' a' E. apply J2 in E as [K1 K2]. split; [congruence|done].
  - split; [done|]. intros ? ? [= <- <-]. by split.
Qed.

(** ** Releasing *)
Lemma put_same a t i o : get_option a t i = Ok o -> put_option a t i o = a.
Proof.
  intros E. apply get_option_Ok in E as (T & HT & Hi). unfold put_option, set_tabs.
  replace (alter (fun T => <[i := o]> T) t (a_tabs a)) with (a_tabs a); [by destruct a|].
  apply list_eq. intros j. destruct (decide (j = t)) as [->|N].
  - rewrite list_lookup_alter, HT. cbn. by rewrite list_insert_id.
  - by rewrite list_lookup_alter_ne.
Qed.
Lemma free_option_single a t i : all_single a ->
  free_option a t i = match get_option a t i with Ok _ => Ok a | UB u => UB u end.
Proof.
  intros HA. unfold free_option. destruct (get_option a t i) as [o|] eqn:E; cbn [rbind]; [|done].
  destruct (single_get _ _ _ _ HA E) as [Al _]. unfold free_option_value, hbind, get_opt. cbn [h_opt]. rewrite Al.
  cbn. rewrite (put_same _ _ _ _ E). by destruct a.
Qed.
Lemma free_from_single n : forall a t i a', all_single a -> free_options_from a t i n = Ok a' -> a' = a.
Proof.
  induction n as [|n IH]; intros a t i a' HA E; cbn [free_options_from] in E; [by injection E|].
  rewrite free_option_single in E by done. destruct (get_option a t i); cbn [rbind] in E; [|done]. by eapply IH.
Qed.
Lemma free_from_W n : forall a t i, all_single a -> free_options_from (W a) t i n = rmap W (free_options_from a t i n).
Proof.
  induction n as [|n IH]; intros a t i HA; cbn [free_options_from]; [done|].
  rewrite !free_option_single by done. rewrite W_get. destruct (get_option a t i); cbn [rbind]; [|done]. by apply IH.
Qed.
Lemma free_options_W a tp : all_single a ->
  free_options (W a) tp = rmap W (free_options a tp) /\ forall a', free_options a tp = Ok a' -> a' = a.
Proof.
  intros HA. unfold free_options. change (table_ptr tp (W a)) with (table_ptr tp a).
  destruct (table_ptr tp a) as [T|]; cbn [rbind]; [|done]. destruct tp as [t|]; [|done].
  split; [by apply free_from_W|]. intros a'. by apply free_from_single.
Qed.
Lemma free_stack_W stk : forall a, all_single a ->
  free_stack (W a) stk = rmap W (free_stack a stk) /\ forall a', free_stack a stk = Ok a' -> a' = a.
Proof.
  induction stk as [|r stk IH]; intros a HA; cbn [free_stack]; [split; [done|by intros ? [= <-]]|].
  change (sub_of (W a) r) with (sub_of a r). destruct (sub_of a r) as [s|]; cbn [rbind]; [|done].
  destruct (free_options_W a s HA) as [E1 E2]. rewrite E1.
  destruct (free_options a s) as [a1|]; cbn [rmap rbind]; [|done]. rewrite (E2 a1 eq_refl). by apply IH.
Qed.
Lemma free_W a : all_single a -> argus_free (W a) = rmap W (argus_free a) /\ forall a', argus_free a = Ok a' -> a' = a.
Proof.
  intros HA. unfold argus_free. change (a_root (W a)) with (a_root a).
  destruct (free_options_W a (Some (a_root a)) HA) as [E1 E2]. rewrite E1.
  destruct (free_options a (Some (a_root a))) as [a1|]; cbn [rmap rbind]; [|done]. rewrite (E2 a1 eq_refl).
  change (a_stack (W a)) with (a_stack a). by apply free_stack_W.
Qed.

(** ** The whole parse *)
Definition Wo (x : outcome * argus) : outcome * argus := (fst x, W (snd x)).
Lemma free_then a (o : outcome) : all_single a ->
  (let* a' := argus_free (W a) in Ok (o, a')) = rmap Wo (let* a' := argus_free a in Ok (o, a')) /\
  forall o' a', (let* a' := argus_free a in Ok (o, a')) = Ok (o', a') -> a' = a.
Proof.
  intros HA. destruct (free_W a HA) as [E1 E2]. rewrite E1. destruct (argus_free a) as [a1|]; cbn [rmap rbind]; [|done].
  split; [done|]. intros ? ? [= <- <-]. by apply E2.
Qed.
Lemma parse_single a argv : subs_present (decls a) -> is_Some (decls a !! a_root a) -> all_single a ->
  argus_parse (W a) argv = rmap Wo (argus_parse a argv) /\
  forall o a', argus_parse a argv = Ok (o, a') -> a_heap a' = a_heap a.
Proof.
  intros HS HR HA. destruct (reads_total _ _ 0%nat false argv HS HR) as [its Hr].
  unfold argus_parse. change (a_root (W a)) with (a_root a).
  rewrite (parse_reads _ _ _ _ _ _ HS HR Hr). rewrite (parse_reads (W a) _ _ _ _ _ HS HR Hr).
  destruct (perform_single its a HA) as [P1 P2]. rewrite P1.
  destruct (perform a its) as [[st a1]|]; cbn [rmap rbind Wz fst snd]; [|done].
  destruct (P2 _ _ eq_refl) as [H1 HA1].
  change (set_err (W a1) st) with (W (set_err a1 st)). cbv zeta.
  change (add_log (W (set_err a1 st)) [EUsage]) with (W (add_log (set_err a1 st) [EUsage])).
  assert (HA2 : all_single (set_err a1 st)) by exact HA1.
  destruct (st =? SHOULD_EXIT).
  { destruct (free_then (set_err a1 st) (Exited SUCCESS) HA2) as [F1 F2]. split; [exact F1|].
    intros o a' E. apply F2 in E as ->. done. }
  destruct (negb _).
  { assert (HA3 : all_single (add_log (set_err a1 st) [EUsage])) by exact HA1.
    destruct (free_then _ (Returned st) HA3) as [F1 F2]. split; [exact F1|].
    intros o a' E. apply F2 in E as ->. done. }
  destruct (load_vars_single (set_err a1 st) HA2) as [L1 L2]. rewrite L1.
  destruct (load_env_vars (set_err a1 st)) as [[st2 a2]|]; cbn [rmap rbind Wz fst snd]; [|done].
  destruct (L2 _ _ eq_refl) as [H2 HA3]. cbn in H2. destruct (negb _).
  { destruct (free_then a2 (Returned st2) HA3) as [F1 F2]. split; [exact F1|].
    intros o a' E. apply F2 in E as ->. congruence. }
  destruct (post_single a2 HA3) as [Q1 Q2]. rewrite Q1.
  destruct (post_parse_validation a2) as [[st3 a3]|]; cbn [rmap rbind Wz fst snd]; [|done].
  destruct (Q2 _ _ eq_refl) as [H3 HA4]. destruct (negb _).
  { destruct (free_then a3 (Returned st3) HA4) as [F1 F2]. split; [exact F1|].
    intros o a' E. apply F2 in E as ->. congruence. }
  split; [done|]. intros o a' [= <- <-]. congruence.
Qed.
Lemma single_parse a argv : subs_present (decls a) -> is_Some (decls a !! a_root a) -> all_single a ->
  argus_parse (with_oracle a orc) argv = (let* (o, a') := argus_parse a argv in Ok (o, with_oracle a' orc)) /\
  forall o a', argus_parse a argv = Ok (o, a') -> a_heap a' = a_heap a.
Proof.
  intros HS HR HA. destruct (parse_single a argv HS HR HA) as [E1 E2]. split; [|exact E2].
  change (with_oracle a orc) with (W a). rewrite E1. by destruct (argus_parse a argv) as [[o a1]|].
Qed.
End single.
