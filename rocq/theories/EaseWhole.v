(** * Fewer rules: the whole parse (C88) *)
From Verif Require Import SpecEase LibProofs FrameProofs GrammarProofs GrammarLemmas ActiveProofs EnvProofs ExtendProofs EaseProofs.
From Coq Require Import Lia.

Lemma es_decls a b : eases a b -> Forall2 (Forall2 eased) (decls a) (decls b).
Proof.
  intros X. unfold decls. apply Forall2_fmap. eapply Forall2_impl; [exact (es_tabs _ _ X)|].
  intros T U TU. apply Forall2_fmap. eapply Forall2_impl; [exact TU|]. by intros o p (e & He & ->).
Qed.
Lemma es_table a b t T : eases a b -> a_tabs a !! t = Some T -> exists U, a_tabs b !! t = Some U /\ Forall2 eased_opt T U.
Proof. intros X. apply (Forall2_lookup_l _ _ _ _ _ (es_tabs _ _ X)). Qed.
Lemma es_get a b t i o : eases a b -> get_option a t i = Ok o ->
  exists e, eased (decl_of o) e /\ get_option b t i = Ok (relabel e o).
Proof.
  intros X Ho. apply get_option_Ok in Ho as (T & HT & Hi). destruct (es_table _ _ _ _ X HT) as (U & HU & TU).
  destruct (Forall2_lookup_l _ _ _ _ _ TU Hi) as (p & Hp & e & He & ->). exists e. split; [done|].
  apply get_option_Ok. eauto.
Qed.
Lemma es_put a b t i o p : eases a b -> eased_opt o p -> eases (put_option a t i o) (put_option b t i p).
Proof.
  intros X op. destruct X. split; try done. cbn. apply Forall2_alter; [done|]. intros T U _ _ TU.
  by apply Forall2_insert.
Qed.
Lemma es_set_heap a b h : eases a b -> eases (set_heap a h) (set_heap b h).
Proof. intros []. by split. Qed.
Lemma es_set_stack a b s : eases a b -> eases (set_stack a s) (set_stack b s).
Proof. intros []. by split. Qed.
Lemma es_set_err a b s : eases a b -> eases (set_err a s) (set_err b s).
Proof. intros []. by split. Qed.
Lemma es_event a b e : eases a b -> eases (apply_event a e) (apply_event b e).
Proof. intros []. destruct e; split; cbn; congruence || done. Qed.
Lemma es_events l : forall a b, eases a b -> eases (apply_events a l) (apply_events b l).
Proof. induction l as [|e l IH]; intros a b X; [done|]. apply (IH _ _ (es_event _ _ e X)). Qed.
Lemma es_sub a b r s : eases a b -> sub_of a r = Ok s -> sub_of b r = Ok s.
Proof.
  intros X. unfold sub_of. intros E. apply rbind_Ok in E as (o & Ho & E). destruct (es_get _ _ _ _ _ X Ho) as (e & He & ->).
  cbn. by rewrite (ea_sub _ _ He).
Qed.
Lemma es_active a b act : eases a b -> get_active_options a = Ok act -> get_active_options b = Ok act.
Proof.
  intros X. unfold get_active_options. rewrite (es_stack _ _ X), ?(es_root _ _ X). destruct (last (a_stack a)) as [r|]; [|done].
  by apply es_sub.
Qed.

Section libc.
Context `{Libc}.

(** ** Validators *)
Lemma silent f arg h ev : run_validator f arg h = Ok (0, ev) -> ev = [].
Proof.
  destruct f, arg; cbn; try done; intros E; repeat case_match; try done; try (by injection E as <-);
    unfold range_validator, length_validator, count_validator, choices_string_validator, choices_int_validator,
      choices_float_validator, regex_validator in E; unfold rbind in E; repeat case_match; try done; try (by injection E); by injection E as ? <-.
Qed.
Lemma pass_all ord l arg h ev : run_validators ord l arg h = Ok (0, ev) ->
  ev = [] /\ forall x, x ∈ l -> is_order ord x = true -> run_validator (v_fun x) arg h = Ok (0, []).
Proof.
  revert ev. induction l as [|y l IH]; intros ev; cbn [run_validators].
  { intros [= <-]. split; [done|]. intros x Hx. by apply elem_of_nil in Hx. }
  destruct (is_order ord y) eqn:Ey.
  - intros E. apply rbind_Ok in E as ([st ev1] & E1 & E). destruct (st =? SUCCESS) eqn:Es.
    + apply Z.eqb_eq in Es as ->. apply rbind_Ok in E as ([st2 ev2] & E2 & E). injection E as -> <-.
      pose proof (silent _ _ _ _ E1) as ->. destruct (IH _ E2) as [-> Hl]. split; [done|].
      intros x Hx. apply elem_of_cons in Hx as [->|Hx]; [done|by apply Hl].
    + injection E as -> _. by apply Z.eqb_neq in Es.
  - intros E. destruct (IH _ E) as [-> Hl]. split; [done|].
    intros x Hx Ho. apply elem_of_cons in Hx as [->|Hx]; [congruence|by apply Hl].
Qed.
Lemma pass_some ord l arg h : (forall x, x ∈ l -> is_order ord x = true -> run_validator (v_fun x) arg h = Ok (0, [])) ->
  run_validators ord l arg h = Ok (0, []).
Proof.
  induction l as [|y l IH]; intros Hl; cbn [run_validators]; [done|].
  destruct (is_order ord y) eqn:Ey; [rewrite (Hl y) by (done || left); cbn [rbind]; change (0 =? SUCCESS) with true; cbv iota|];
    rewrite IH by (intros x Hx; apply Hl; by right); done.
Qed.
Definition validate (ord : vorder) (d : decl) (arg : varg) (h : heap) : res (Z * list event) :=
  match d_validators d with None => Ok (SUCCESS, []) | Some l => run_validators ord l arg h end.
Lemma pass_eased ord d e arg arg' h ev : eased d e ->
  (forall f, run_validator f arg' h = run_validator f arg h) ->
  validate ord d arg h = Ok (0, ev) -> ev = [] /\ validate ord e arg' h = Ok (0, []).
Proof.
  intros X Ha E.
  assert (P : ev = [] /\ forall x, x ∈ default [] (d_validators d) -> is_order ord x = true -> run_validator (v_fun x) arg h = Ok (0, [])).
  { unfold validate in E. destruct (d_validators d) as [l|]; cbn; [by apply pass_all|]. injection E as <-. split; [done|].
    intros x Hx. by apply elem_of_nil in Hx. }
  destruct P as [-> P]. split; [done|]. unfold validate. pose proof (ea_validators _ _ X) as V.
  destruct (d_validators e) as [l|]; cbn in V; [|done]. apply pass_some. intros x Hx Ho. rewrite Ha. by apply P; [apply V|].
Qed.
Lemma relabel_validator f e o h : run_validator f (ArgOption (relabel e o)) h = run_validator f (ArgOption o) h.
Proof. by destruct f. Qed.

(** ** One pair *)
Lemma exec_ease a b t i v a' : eases a b -> execute_callbacks a t i v = Ok (0, a') ->
  exists b', execute_callbacks b t i v = Ok (0, b') /\ eases a' b'.
Proof.
  intros X. unfold execute_callbacks. intros E. apply rbind_Ok in E as (o & Ho & E).
  destruct (es_get _ _ _ _ _ X Ho) as (e & He & ->). cbn [rbind relabel decl_of].
  rewrite (ea_handler _ _ He). destruct (d_handler (decl_of o)) as [f|]; [|done].
  rewrite (es_heap _ _ X). fold (validate ORDER_PRE (decl_of o) (ArgText v) (a_heap a)) in E.
  fold (validate ORDER_PRE e (ArgText v) (a_heap a)).
  apply rbind_Ok in E as ([st1 ev] & Hv & E). destruct (st1 =? SUCCESS) eqn:Es.
  2:{ cbn [negb] in E. injection E as -> _. by apply Z.eqb_neq in Es. }
  apply Z.eqb_eq in Es as ->. destruct (pass_eased _ _ _ _ (ArgText v) _ _ He (fun _ => eq_refl) Hv) as [-> ->].
  cbn [rbind]. change (negb (SUCCESS =? SUCCESS)) with false in *. change (negb (0 =? SUCCESS)) with false.
  change (apply_events a []) with a in *. change (apply_events b []) with b. cbv zeta iota in *.
  apply rbind_Ok in E as (act & Ha & E). rewrite (es_active _ _ _ X Ha). cbn [rbind].
  rewrite (es_root _ _ X). apply rbind_Ok in E as ([st2 s] & Hs & E).
  assert (R0 : alike_st (Hst o (a_heap a) []) (Hst (relabel e o) (a_heap a) [])) by (split; [by exists e|done]).
  destruct (sim_run_handler _ _ _ _ _ _ _ R0 Hs) as (p & Hp & R). fold (relabel e o). rewrite (es_heap _ _ X), Hp. cbn [rbind].
  destruct R as (R & Hh & Hl). rewrite Hh, Hl.
  assert (X2 : eases (apply_events (set_heap (put_option a t i (h_opt s)) (h_heap s)) (h_log s))
                     (apply_events (set_heap (put_option b t i (h_opt p)) (h_heap s)) (h_log s))).
  { apply es_events, es_set_heap, es_put; done. }
  set (a2 := apply_events _ (h_log s)) in *. set (b2 := apply_events _ (h_log s)) in X2 |- *.
  destruct (st2 =? SUCCESS) eqn:E2.
  2:{ cbn [negb] in E. injection E as -> _. by apply Z.eqb_neq in E2. }
  cbn [negb] in *. apply rbind_Ok in E as (o2 & Ho2 & E). destruct (es_get _ _ _ _ _ X2 Ho2) as (e2 & He2 & ->). cbn [rbind].
  set (o4 := if (value_count (with_set o2 true) =? 0)%nat then with_count (with_set o2 true) 1 else with_set o2 true) in *.
  assert (E4 : (if (value_count (with_set (relabel e2 o2) true) =? 0)%nat then with_count (with_set (relabel e2 o2) true) 1
    else with_set (relabel e2 o2) true) = relabel e2 o4).
  { unfold o4. change (value_count (with_set (relabel e2 o2) true)) with (value_count (with_set o2 true)).
    by destruct (_ =? 0)%nat. }
  rewrite E4. assert (D4 : decl_of o4 = decl_of o2) by (unfold o4; by destruct (_ =? 0)%nat).
  cbn [relabel decl_of]. rewrite D4 in E. change FLAG_EXIT with (2 ^ 5)%N in *. rewrite (ea_has _ _ 5 He2) by lia.
  destruct (has _ _); [discriminate|]. injection E as <-. eexists. split; [done|]. apply es_put; [done|].
  exists e2. by rewrite D4.
Qed.
Lemma perform_ease its : forall a b a', eases a b -> (forall c m, Reject c m ∉ its) -> perform a its = Ok (0, a') ->
  exists b', perform b its = Ok (0, b') /\ eases a' b'.
Proof.
  induction its as [|y its IH]; intros a b a' X N; cbn [perform]; [intros [= <-]; eauto|].
  pose proof (not_cons _ _ N) as N'. destruct y as [t i v|t i|c m].
  - intros E. apply rbind_Ok in E as ([st1 a1] & E1 & E). destruct (st1 =? 0) eqn:Es.
    + apply Z.eqb_eq in Es as ->. destruct (exec_ease _ _ _ _ _ _ X E1) as (b1 & -> & X1). cbn. by eapply IH.
    + injection E as -> _. by apply Z.eqb_neq in Es.
  - intros E. apply rbind_Ok in E as (a1 & E1 & E). unfold select in *. apply rbind_Ok in E1 as (o & Ho & E1).
    destruct (es_get _ _ _ _ _ X Ho) as (e & He & ->). cbn [rbind]. rewrite (es_stack _ _ X).
    destruct (_ <? _)%nat; [|done]. injection E1 as <-. cbn [rbind].
    eapply IH; [|done|exact E]. apply es_set_stack, es_put; [done|]. by exists e.
  - destruct (N c m). left.
Qed.

(** ** The environment *)
Lemma ea_env_variable px d e : eased d e -> get_env_var_name px e = get_env_var_name px d.
Proof.
  intros X. unfold get_env_var_name. rewrite (ea_env_name _ _ X), (ea_name _ _ X), (ea_lname _ _ X).
  change FLAG_NO_ENV_PREFIX with (2 ^ 8)%N. change FLAG_AUTO_ENV with (2 ^ 7)%N.
  by rewrite !(ea_has _ _ 8 X), !(ea_has _ _ 7 X) by lia.
Qed.
Lemma ea_is_type ty e o : eased (decl_of o) e -> is_type ty (relabel e o) = is_type ty o.
Proof. intros X. unfold is_type. cbn. by rewrite (ea_type _ _ X). Qed.
Lemma env_ease n : forall a b t i a', eases a b -> load_env_from a t i n = Ok (0, a') ->
  exists b', load_env_from b t i n = Ok (0, b') /\ eases a' b'.
Proof.
  induction n as [|n IH]; intros a b t i a' X; cbn [load_env_from]; [intros [= <-]; eauto|].
  intros E. apply rbind_Ok in E as (o & Ho & E). destruct (es_get _ _ _ _ _ X Ho) as (e & He & ->). cbn [rbind].
  rewrite !(ea_is_type _ _ _ He), (es_prefix _ _ X). cbn [relabel decl_of is_set]. rewrite (ea_env_variable _ _ _ He).
  change FLAG_ENV_OVERRIDE with (2 ^ 6)%N in *. rewrite (ea_has _ _ 6 He) by lia.
  destruct (_ || _); [by eapply IH|]. destruct (_ && _); [by eapply IH|].
  destruct (get_env_var_name _ _); [|by eapply IH]. destruct (getenv _); [|by eapply IH].
  apply rbind_Ok in E as ([st1 a1] & E1 & E). destruct (st1 =? SUCCESS) eqn:Es.
  - apply Z.eqb_eq in Es as ->. destruct (exec_ease _ _ _ _ _ _ X E1) as (b1 & -> & X1). cbn. by eapply IH.
  - apply Z.eqb_neq in Es. destruct (is_set o).
    + apply rbind_Ok in E as (o1 & _ & E). by injection E as -> _.
    + by injection E as -> _.
Qed.
Lemma es_length a b t T : eases a b -> table a t = Ok T -> exists U, table b t = Ok U /\ Forall2 eased_opt T U.
Proof.
  intros X. unfold table. destruct (a_tabs a !! t) as [T0|] eqn:HT; [|done]. intros [= ->].
  destruct (es_table _ _ _ _ X HT) as (U & -> & TU). eauto.
Qed.
Lemma load_ease a b t a' : eases a b -> load_env a t = Ok (0, a') ->
  exists b', load_env b t = Ok (0, b') /\ eases a' b'.
Proof.
  intros X. unfold load_env. intros E. apply rbind_Ok in E as (T & HT & E).
  destruct (es_length _ _ _ _ X HT) as (U & -> & TU). cbn [rbind]. rewrite <- (Forall2_length _ _ _ TU). by eapply env_ease.
Qed.
Lemma load_stack_ease stk : forall a b a', eases a b -> load_env_stack a stk = Ok (0, a') ->
  exists b', load_env_stack b stk = Ok (0, b') /\ eases a' b'.
Proof.
  induction stk as [|r stk IH]; intros a b a' X; cbn [load_env_stack]; [intros [= <-]; eauto|].
  intros E. apply rbind_Ok in E as (s & Hs & E). rewrite (es_sub _ _ _ _ X Hs). cbn [rbind].
  destruct s as [t|]; [|by eapply IH]. apply rbind_Ok in E as ([st1 a1] & E1 & E). destruct (st1 =? SUCCESS) eqn:Es.
  - apply Z.eqb_eq in Es as ->. destruct (load_ease _ _ _ _ X E1) as (b1 & -> & X1). cbn. by eapply IH.
  - injection E as -> _. by apply Z.eqb_neq in Es.
Qed.
Lemma load_vars_ease a b a' : eases a b -> load_env_vars a = Ok (0, a') ->
  exists b', load_env_vars b = Ok (0, b') /\ eases a' b'.
Proof.
  intros X. unfold load_env_vars. rewrite (es_root _ _ X). intros E. apply rbind_Ok in E as ([st1 a1] & E1 & E).
  destruct (st1 =? SUCCESS) eqn:Es.
  - apply Z.eqb_eq in Es as ->. destruct (load_ease _ _ _ _ X E1) as (b1 & -> & X1). cbn. rewrite (es_stack _ _ X1).
    by eapply load_stack_ease.
  - injection E as -> _. by apply Z.eqb_neq in Es.
Qed.

(** ** The final checks *)
Lemma find_eased T U n : Forall2 eased_opt T U -> find_option_by_name U n = find_option_by_name T n.
Proof.
  unfold find_option_by_name. induction 1 as [|o p T U (e & He & ->) TU IH]; [done|]. cbn [find_index].
  cbn [relabel decl_of]. rewrite (ea_name _ _ He), IH. done.
Qed.
Definition dependency (T : list opt) (want : bool) (n : cstr) : Prop :=
  forall i r, find_option_by_name T n = Some i -> T !! i = Some r -> is_set r = want.
Lemma required_all T name l ev : validate_required T name l = (0, ev) ->
  ev = [] /\ forall n, n ∈ l -> dependency T true n.
Proof.
  revert ev. induction l as [|y l IH]; intros ev; cbn [validate_required].
  { intros [= <-]. split; [done|]. intros x Hx. by apply elem_of_nil in Hx. }
  intros E. assert (P : validate_required T name l = (0, ev) /\ dependency T true y).
  { unfold dependency. destruct (find_option_by_name T y) as [i|] eqn:Ei; [|split; [done|by intros]].
    destruct (T !! i) as [r|] eqn:Hr; [|split; [done|]; intros ? ? [= <-]; congruence].
    destruct (is_set r) eqn:Es; [|done]. split; [done|]. intros ? ? [= <-]. congruence. }
  destruct P as [P Py]. destruct (IH _ P) as [-> Hl]. split; [done|].
  intros n Hn. apply elem_of_cons in Hn as [->|Hn]; [done|by apply Hl].
Qed.
Lemma required_some T name l : (forall n, n ∈ l -> dependency T true n) -> validate_required T name l = (0, []).
Proof.
  induction l as [|y l IH]; intros Hl; cbn [validate_required]; [done|].
  rewrite IH by (intros n Hn; apply Hl; by right). pose proof (Hl y (elem_of_list_here _ _)) as Hy. unfold dependency in Hy.
  destruct (find_option_by_name T y) as [i|]; [|done]. destruct (T !! i) as [r|] eqn:Hr; [|done].
  by rewrite (Hy i r).
Qed.
Lemma conflicts_all T name l ev : validate_conflicts T name l = (0, ev) ->
  ev = [] /\ forall n, n ∈ l -> dependency T false n.
Proof.
  revert ev. induction l as [|y l IH]; intros ev; cbn [validate_conflicts].
  { intros [= <-]. split; [done|]. intros x Hx. by apply elem_of_nil in Hx. }
  intros E. assert (P : validate_conflicts T name l = (0, ev) /\ dependency T false y).
  { unfold dependency. destruct (find_option_by_name T y) as [i|] eqn:Ei; [|split; [done|by intros]].
    destruct (T !! i) as [r|] eqn:Hr; [|split; [done|]; intros ? ? [= <-]; congruence].
    destruct (is_set r) eqn:Es; [done|]. split; [done|]. intros ? ? [= <-]. congruence. }
  destruct P as [P Py]. destruct (IH _ P) as [-> Hl]. split; [done|].
  intros n Hn. apply elem_of_cons in Hn as [->|Hn]; [done|by apply Hl].
Qed.
Lemma conflicts_some T name l : (forall n, n ∈ l -> dependency T false n) -> validate_conflicts T name l = (0, []).
Proof.
  induction l as [|y l IH]; intros Hl; cbn [validate_conflicts]; [done|].
  rewrite IH by (intros n Hn; apply Hl; by right). pose proof (Hl y (elem_of_list_here _ _)) as Hy. unfold dependency in Hy.
  destruct (find_option_by_name T y) as [i|]; [|done]. destruct (T !! i) as [r|] eqn:Hr; [|done].
  by rewrite (Hy i r).
Qed.
Lemma dependency_eased T U w n : Forall2 eased_opt T U -> dependency T w n -> dependency U w n.
Proof.
  intros TU Hd i r. rewrite (find_eased _ _ _ TU). intros Hi Hr.
  destruct (Forall2_lookup_r _ _ _ _ _ TU Hr) as (o & Ho & e & _ & ->). exact (Hd i o Hi Ho).
Qed.
Lemma set_ease h T U l m : Forall2 eased_opt T U -> Forall2 eased_opt l m ->
  forall g g' x x' f f' ev, (x' = true -> x = true /\ f' = f) ->
  validate_options_set h T l g x f = Ok (0, ev) -> ev = [] /\ validate_options_set h U m g' x' f' = Ok (0, []).
Proof.
  intros TU. induction 1 as [|o p l m (e & He & ->) _ IH]; intros g g' x x' f f' ev Hx; cbn [validate_options_set].
  { by intros [= <-]. }
  rewrite !(ea_is_type _ _ _ He). cbn [relabel decl_of is_set]. destruct (is_type TGroup o).
  { apply IH. intros Hb. split; [|done]. change FLAG_EXCLUSIVE with (2 ^ 14)%N in *. apply has_bit in Hb.
    apply has_bit. by apply (ea_exclusive _ _ He). }
  destruct (is_type TPositional o && has (d_flags (decl_of o)) FLAG_REQUIRED && negb (is_set o)) eqn:Er; [done|].
  assert (Er' : is_type TPositional o && has (d_flags e) FLAG_REQUIRED && negb (is_set o) = false).
  { destruct (is_type TPositional o); [|done]. destruct (is_set o); [by rewrite !andb_false_r|].
    rewrite andb_true_r in *. cbn in *. destruct (has (d_flags e) FLAG_REQUIRED) eqn:Eh; [|done].
    change FLAG_REQUIRED with (2 ^ 0)%N in *. apply has_bit in Eh. apply (ea_required _ _ He) in Eh.
    apply has_bit in Eh. congruence. }
  rewrite Er'. destruct (is_set o); [|by apply IH].
  destruct (x && match f with Some _ => true | None => false end) eqn:Ex; [done|].
  assert (Ex' : x' && match f' with Some _ => true | None => false end = false).
  { destruct x'; [|done]. destruct (Hx eq_refl) as [-> ->]. done. }
  rewrite Ex'. intros E. apply rbind_Ok in E as ([st ev1] & E1 & E). unfold call_validators in *.
  fold (validate ORDER_POST (decl_of o) (ArgOption o) h) in E1. cbn [relabel decl_of]. fold (relabel e o).
  fold (validate ORDER_POST e (ArgOption (relabel e o)) h).
  destruct (st =? SUCCESS) eqn:Es.
  2:{ cbn [negb] in E. injection E as -> _. by apply Z.eqb_neq in Es. }
  apply Z.eqb_eq in Es as ->.
  destruct (pass_eased _ _ _ _ (ArgOption (relabel e o)) _ _ He (fun f => relabel_validator f e o h) E1) as [-> ->].
  cbn [rbind]. change (negb (SUCCESS =? SUCCESS)) with false in *. change (negb (0 =? SUCCESS)) with false. cbv iota in *.
  destruct (match d_require (decl_of o) with Some r => validate_required T (d_name (decl_of o)) r | None => (SUCCESS, []) end)
    as [st2 ev2] eqn:E2. destruct (st2 =? SUCCESS) eqn:Es2.
  2:{ cbn [negb] in E. injection E as -> _. by apply Z.eqb_neq in Es2. }
  apply Z.eqb_eq in Es2 as ->. change (negb (SUCCESS =? SUCCESS)) with false in *. cbv iota in E.
  assert (R : match d_require e with Some r => validate_required U (d_name e) r | None => (SUCCESS, []) end = (0, [])).
  { pose proof (ea_requires _ _ He) as V. destruct (d_require e) as [r'|]; [|done]. cbn in V. apply required_some.
    intros n Hn. apply V in Hn. destruct (d_require (decl_of o)) as [r|]; cbn in Hn; [|by apply elem_of_nil in Hn].
    apply (dependency_eased _ _ _ _ TU). by apply required_all in E2 as [_ E2]; apply E2. }
  rewrite R. change (negb (0 =? SUCCESS)) with false. cbv iota.
  destruct (match d_conflict (decl_of o) with Some r => validate_conflicts T (d_name (decl_of o)) r | None => (SUCCESS, []) end)
    as [st3 ev3] eqn:E3. destruct (st3 =? SUCCESS) eqn:Es3.
  2:{ cbn [negb] in E. injection E as -> _. by apply Z.eqb_neq in Es3. }
  apply Z.eqb_eq in Es3 as ->. change (negb (SUCCESS =? SUCCESS)) with false in *. cbv iota in E.
  assert (C : match d_conflict e with Some r => validate_conflicts U (d_name e) r | None => (SUCCESS, []) end = (0, [])).
  { pose proof (ea_conflicts _ _ He) as V. destruct (d_conflict e) as [r'|]; [|done]. cbn in V. apply conflicts_some.
    intros n Hn. apply V in Hn. destruct (d_conflict (decl_of o)) as [r|]; cbn in Hn; [|by apply elem_of_nil in Hn].
    apply (dependency_eased _ _ _ _ TU). by apply conflicts_all in E3 as [_ E3]; apply E3. }
  rewrite C. change (negb (0 =? SUCCESS)) with false. cbv iota.
  apply rbind_Ok in E as ([st4 ev4] & E4 & E). injection E as -> <-.
  rewrite (ea_name _ _ He).
  assert (Hx2 : x' = true -> x = true /\ (if x' then d_name (decl_of o) else f') = (if x then d_name (decl_of o) else f)).
  { intros ->. destruct (Hx eq_refl) as [-> _]. done. }
  destruct (IH _ g' _ _ _ _ _ Hx2 E4) as [-> ->]. done.
Qed.
Lemma table_ease a b tp a' : eases a b -> validate_table a tp = Ok (0, a') ->
  exists b', validate_table b tp = Ok (0, b') /\ eases a' b'.
Proof.
  intros X. unfold validate_table. intros E. apply rbind_Ok in E as (T & HT & E). destruct tp as [t|]; [|done].
  destruct (es_length _ _ _ _ X HT) as (U & HU & TU). cbn [table_ptr]. rewrite HU. cbn [rbind].
  apply rbind_Ok in E as ([st ev] & E1 & E). injection E as -> <-. rewrite (es_heap _ _ X).
  assert (Hf : false = true -> false = true /\ None = @None cstr) by done.
  destruct (set_ease (a_heap a) T U T U TU TU None None false false None None ev Hf E1) as [-> ->].
  cbn [rbind]. eexists. split; [done|]. by apply es_events.
Qed.
Lemma stack_ease stk : forall a b a', eases a b -> validate_stack a stk = Ok (0, a') ->
  exists b', validate_stack b stk = Ok (0, b') /\ eases a' b'.
Proof.
  induction stk as [|r stk IH]; intros a b a' X; cbn [validate_stack]; [intros [= <-]; eauto|].
  intros E. apply rbind_Ok in E as (s & Hs & E). rewrite (es_sub _ _ _ _ X Hs). cbn [rbind].
  apply rbind_Ok in E as ([st1 a1] & E1 & E). destruct (st1 =? SUCCESS) eqn:Es.
  - apply Z.eqb_eq in Es as ->. destruct (table_ease _ _ _ _ X E1) as (b1 & -> & X1). cbn. by eapply IH.
  - injection E as -> _. by apply Z.eqb_neq in Es.
Qed.
Lemma post_ease a b a' : eases a b -> post_parse_validation a = Ok (0, a') ->
  exists b', post_parse_validation b = Ok (0, b') /\ eases a' b'.
Proof.
  intros X. unfold post_parse_validation. rewrite (es_root _ _ X). intros E. apply rbind_Ok in E as ([st1 a1] & E1 & E).
  destruct (st1 =? SUCCESS) eqn:Es.
  - apply Z.eqb_eq in Es as ->. destruct (table_ease _ _ _ _ X E1) as (b1 & -> & X1). cbn. rewrite (es_stack _ _ X1).
    by eapply stack_ease.
  - injection E as -> _. by apply Z.eqb_neq in Es.
Qed.

(** ** The whole *)
Lemma parse_ease a b argv a' : subs_present (decls a) -> is_Some (decls a !! a_root a) -> eases a b ->
  argus_parse a argv = Ok (Returned 0, a') -> exists b', argus_parse b argv = Ok (Returned 0, b') /\ eases a' b'.
Proof.
  intros S R X E. destruct (success_accepted _ _ _ S R E) as (its & Hr & N).
  pose proof (es_decls _ _ X) as DE.
  assert (P : parse_args a (Some (a_root a)) 0 false argv = perform a its) by (by apply argus_parse_perform).
  assert (P' : parse_args b (Some (a_root b)) 0 false argv = perform b its).
  { rewrite (es_root _ _ X). destruct R as [T HT]. destruct (ea_table _ _ DE _ _ HT) as (U & HU & _).
    rewrite <- (es_root _ _ X) in *. apply argus_parse_perform.
    - by eapply ea_subs.
    - by rewrite HU.
    - by eapply ea_reads. }
  unfold argus_parse in *. rewrite P in E. rewrite P'. apply rbind_Ok in E as ([st a1] & E1 & E). cbv zeta in *.
  destruct (st =? SHOULD_EXIT).
  { apply rbind_Ok in E as (a2 & E2 & E). done. }
  destruct (st =? SUCCESS) eqn:Es; cbn [negb] in E.
  2:{ apply rbind_Ok in E as (a2 & E2 & E). injection E as -> _. by apply Z.eqb_neq in Es. }
  apply Z.eqb_eq in Es as ->. destruct (perform_ease _ _ _ _ X N E1) as (b1 & -> & X1). cbn [rbind].
  change (0 =? SHOULD_EXIT) with false. change (negb (0 =? SUCCESS)) with false. cbv iota.
  apply rbind_Ok in E as ([st2 a2] & E2 & E). destruct (st2 =? SUCCESS) eqn:Es2; cbn [negb] in E.
  2:{ apply rbind_Ok in E as (a3 & E3 & E). injection E as -> _. by apply Z.eqb_neq in Es2. }
  apply Z.eqb_eq in Es2 as ->. destruct (load_vars_ease _ _ _ (es_set_err _ _ 0 X1) E2) as (b2 & -> & X2). cbn [rbind].
  change (negb (0 =? SUCCESS)) with false. cbv iota.
  apply rbind_Ok in E as ([st3 a3] & E3 & E). destruct (st3 =? SUCCESS) eqn:Es3; cbn [negb] in E.
  2:{ apply rbind_Ok in E as (a4 & E4 & E). injection E as -> _. by apply Z.eqb_neq in Es3. }
  apply Z.eqb_eq in Es3 as ->. destruct (post_ease _ _ _ X2 E3) as (b3 & -> & X3). cbn [rbind].
  change (negb (0 =? SUCCESS)) with false. cbv iota. injection E as <-. eauto.
Qed.
End libc.
