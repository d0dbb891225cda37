(** * Proofs: exchanging options *)
From Verif Require Import Api LibProofs SpecGrammar SpecAfter SpecSafe FrameProofs GrammarProofs GrammarLemmas EnvProofs IsolationProofs
  SpecReuse SpecOrder.
From Coq Require Import Lia.

Section order.
Context `{L : Libc}.

Lemma put_comm a t i o t' i' o' : (t, i) <> (t', i') ->
  put_option (put_option a t i o) t' i' o' = put_option (put_option a t' i' o') t i o.
Proof.
  intros N. unfold put_option. cbn. f_equal. destruct (decide (t = t')) as [<-|Ht].
  - rewrite <- !list_alter_compose. apply list_alter_ext; [|done]. intros T _. cbn. apply list_insert_commute. congruence.
  - by rewrite list_alter_commute.
Qed.
Lemma put_put a t i o o' : put_option (put_option a t i o) t i o' = put_option a t i o'.
Proof. unfold put_option. cbn. f_equal. rewrite <- list_alter_compose. apply list_alter_ext; [|done]. intros T _. apply list_insert_insert. Qed.
Lemma put_event a e t i o : put_option (apply_event a e) t i o = apply_event (put_option a t i o) e.
Proof. by destruct e. Qed.
Lemma put_events l : forall a t i o, put_option (apply_events a l) t i o = apply_events (put_option a t i o) l.
Proof.
  induction l as [|e l IH]; intros a t i o; [done|].
  change (put_option (apply_events (apply_event a e) l) t i o = apply_events (apply_event (put_option a t i o) e) l).
  by rewrite IH, put_event.
Qed.
Lemma events_get l a t i : get_option (apply_events a l) t i = get_option a t i.
Proof. unfold get_option, table. by rewrite apply_events_tabs. Qed.
Lemma events_stack l : forall a, a_stack (apply_events a l) = a_stack a.
Proof. induction l as [|e l IH]; intros a; [done|]. change (a_stack (apply_events (apply_event a e) l) = a_stack a). rewrite IH. by destruct e. Qed.
Lemma events_root l : forall a, a_root (apply_events a l) = a_root a.
Proof. induction l as [|e l IH]; intros a; [done|]. change (a_root (apply_events (apply_event a e) l) = a_root a). rewrite IH. by destruct e. Qed.
Lemma events_heap l : forall a, a_heap (apply_events a l) = a_heap a.
Proof. induction l as [|e l IH]; intros a; [done|]. change (a_heap (apply_events (apply_event a e) l) = a_heap a). rewrite IH. by destruct e. Qed.
Lemma active_events l a : get_active_options (apply_events a l) = get_active_options a.
Proof. unfold get_active_options. rewrite events_stack, events_root. destruct (last _); [|done]. unfold sub_of. by rewrite events_get. Qed.
Lemma active_heap h a : get_active_options (set_heap a h) = get_active_options a.
Proof. done. Qed.
Lemma active_put a t i o o' : get_option a t i = Ok o -> decl_of o' = decl_of o ->
  get_active_options (put_option a t i o') = get_active_options a.
Proof.
  intros E D. unfold get_active_options. cbn [a_stack put_option]. change (a_stack (put_option a t i o')) with (a_stack a).
  destruct (last (a_stack a)) as [[t1 i1]|]; [|done]. unfold sub_of. cbn [fst snd].
  destruct (decide ((t1, i1) = (t, i))) as [[= -> ->]|N]; [|by rewrite get_put_other].
  rewrite (get_put_same _ _ _ _ _ E), E. cbn. by rewrite D.
Qed.
Lemma heap_eta a : set_heap a (a_heap a) = a.
Proof. by destruct a. Qed.

(** ** The validators of the text look at nothing else and print nothing when they accept *)
Lemma text_validators_heap l v h h' : run_validators ORDER_PRE l (ArgText v) h = run_validators ORDER_PRE l (ArgText v) h'.
Proof.
  induction l as [|e l IH]; cbn [run_validators]; [done|]. rewrite IH.
  assert (run_validator (v_fun e) (ArgText v) h = run_validator (v_fun e) (ArgText v) h') as -> by (by destruct (v_fun e)). done.
Qed.
Lemma text_validators_silent l v h ev : run_validators ORDER_PRE l (ArgText v) h = Ok (0, ev) -> ev = [].
Proof.
  revert ev. induction l as [|e l IH]; cbn [run_validators]; intros ev; [by intros [= <-]|].
  destruct (is_order _ _); [|apply IH].
  destruct (run_validator (v_fun e) (ArgText v) h) as [[st e1]|] eqn:E1; cbn [rbind]; [|done].
  destruct (Z.eqb_spec st SUCCESS) as [->|]; [|by intros [= -> _]].
  destruct (run_validators _ _ _ _) as [[st2 e2]|]; cbn [rbind]; [|done]. intros [= -> <-]. rewrite (IH e2) by done.
  rewrite app_nil_r. revert E1. destruct (v_fun e); cbn; try done.
  - unfold regex_validator. repeat case_match; try done; by intros [= <-].
  - by intros [= _ <-].
Qed.

Definition runs (a : argus) (t i : nat) (v : option cstr) (a' : argus) : Prop := execute_callbacks a t i v = Ok (0, a').

(** What carrying out a value does. *)
Lemma exec_shape a t i v a' : runs a t i v a' -> exists o act o' h' ev,
  get_option a t i = Ok o /\ get_active_options a = Ok act /\ decl_of o' = decl_of o /\
  a' = apply_events (set_heap (put_option a t i o') h') ev /\
  (forall b, get_option b t i = Ok o -> get_active_options b = Ok act -> a_heap b = a_heap a -> a_root b = a_root a ->
     runs b t i v (apply_events (set_heap (put_option b t i o') h') ev)) /\
  (forall f, d_handler (decl_of o) = Some f -> single_handler f ->
     (f = HHelp \/ f = HVersion -> N.testbit (d_flags (decl_of o)) 5 = true) ->
     ev = [] /\ h' = a_heap a /\
     forall b, get_option b t i = Ok o -> (exists act', get_active_options b = Ok act') -> runs b t i v (put_option b t i o')).
Proof.
  unfold runs. intros E. unfold execute_callbacks in E.
  destruct (get_option a t i) as [o|] eqn:Eo; cbn [rbind] in E; [|done].
  destruct (d_handler (decl_of o)) as [f|] eqn:Ef; [|done].
  destruct (match d_validators (decl_of o) with
            | None => Ok (SUCCESS, [])
            | Some l => run_validators ORDER_PRE l (ArgText v) (a_heap a) end) as [[st ev]|] eqn:Ev; cbn [rbind] in E; [|done].
  destruct (Z.eqb_spec st SUCCESS) as [->|Hst]; cbn [negb] in E; [|injection E as -> _; done].
  assert (ev = []) as ->.
  { destruct (d_validators (decl_of o)); [by eapply text_validators_silent|by injection Ev]. }
  change (apply_events a []) with a in E.
  destruct (get_active_options a) as [act|] eqn:Ea; cbn [rbind] in E; [|done].
  destruct (run_handler (default (a_root a) act) f v (Hst o (a_heap a) [])) as [[st s]|] eqn:Er; cbn [rbind] in E; [|done].
  destruct (Z.eqb_spec st SUCCESS) as [->|Hst]; cbn [negb] in E; [|injection E as -> _; done].
  pose proof (keeps_run_handler _ _ _ _ _ _ Er) as Hk. cbn [h_opt] in Hk.
  assert (Hg : forall b, get_option b t i = Ok o -> forall h l, get_option (apply_events (set_heap (put_option b t i (h_opt s)) h) l) t i = Ok (h_opt s)).
  { intros b Hb h l. rewrite events_get. exact (get_put_same _ _ _ _ _ Hb). }
  rewrite (Hg a Eo) in E. cbn [rbind] in E.
  set (o4 := if (value_count (with_set (h_opt s) true) =? 0)%nat then with_count (with_set (h_opt s) true) 1 else with_set (h_opt s) true) in E.
  assert (D4 : decl_of o4 = decl_of o) by (unfold o4; destruct (_ =? _)%nat; exact Hk).
  destruct (has (d_flags (decl_of o4)) FLAG_EXIT) eqn:Ex; [done|]. injection E as <-.
  assert (Hput : forall b h l, put_option (apply_events (set_heap (put_option b t i (h_opt s)) h) l) t i o4 =
    apply_events (set_heap (put_option b t i o4) h) l).
  { intros b h l. rewrite put_events. f_equal. change (set_heap (put_option (put_option b t i (h_opt s)) t i o4) h = set_heap (put_option b t i o4) h).
    by rewrite put_put. }
  exists o, act, o4, (h_heap s), (h_log s).
  split; [done|]. split; [done|]. split; [done|]. split; [apply Hput|]. split.
  - intros b Hb Hab Hhb Hrb. unfold execute_callbacks. rewrite Hb. cbn [rbind]. rewrite Ef, Hhb, Ev. cbn [rbind].
    change (negb (SUCCESS =? SUCCESS)) with false. cbv iota. change (apply_events b []) with b. rewrite Hab. cbn [rbind].
    rewrite Hhb, Hrb, Er. cbn [rbind]. change (negb (SUCCESS =? SUCCESS)) with false. cbv iota.
    rewrite (Hg b Hb). cbn [rbind]. fold o4. rewrite Ex, Hput. done.
  - intros f' Hf' Hs Hq. rewrite Ef in Hf'. injection Hf' as <-.
    assert (Hnh : f <> HHelp /\ f <> HVersion).
    { rewrite D4 in Ex. unfold has in Ex. split; intros ->; (assert (N.testbit (d_flags (decl_of o)) 5 = true) as Hb by auto);
        revert Ex; apply not_false_iff_true; apply negb_true_iff, N.eqb_neq; intros Hz;
        (assert (N.testbit (N.land (d_flags (decl_of o)) FLAG_EXIT) 5 = false) as Hf by (rewrite Hz; apply N.bits_0));
        rewrite N.land_spec, Hb in Hf; done. }
    assert (Hrun : forall b act', run_handler act' f v (Hst o (a_heap b) []) = Ok (SUCCESS, Hst (h_opt s) (a_heap b) []) /\
              h_heap s = a_heap a /\ h_log s = []).
    { intros b act'. revert Er. clear - Hs Hnh. destruct f; cbn; try done; destruct Hnh as [Hn1 Hn2]; try done.
      - intros [= <-]. done.
      - destruct v as [x|]; cbn; [|done]. destruct (string_to_bool x); cbn; [|done]. intros [= <-]. done.
      - intros [= <-]. done.
      - destruct v; cbn; [|done]. intros [= <-]. done.
      - destruct v; cbn; [|done]. intros [= <-]. done.
      - unfold hbind, get_opt. cbn. destruct (f v (value o)). cbn. intros [= -> <-]. done. }
    split; [apply (Hrun a (default (a_root a) act))|]. split; [apply (Hrun a (default (a_root a) act))|].
    intros b Hb [act' Hab]. destruct (Hrun b (default (a_root b) act')) as (R & _ & _).
    unfold execute_callbacks. rewrite Hb. cbn [rbind]. rewrite Ef.
    assert ((match d_validators (decl_of o) with
            | None => Ok (SUCCESS, [])
            | Some l => run_validators ORDER_PRE l (ArgText v) (a_heap b) end) = Ok (SUCCESS, [])) as ->.
    { rewrite <- Ev. destruct (d_validators (decl_of o)); [apply text_validators_heap|done]. }
    cbn [rbind]. change (negb (SUCCESS =? SUCCESS)) with false. cbv iota. change (apply_events b []) with b. rewrite Hab. cbn [rbind].
    rewrite R. cbn [rbind h_opt h_heap h_log]. change (negb (SUCCESS =? SUCCESS)) with false. cbv iota.
    rewrite (Hg b Hb). cbn [rbind]. fold o4. rewrite Ex, Hput. cbn. change (a_heap b) with (a_heap (put_option b t i o4)). by rewrite heap_eta.
Qed.

Lemma quiet_lookup a t i o : quiet_single (decls a) t i -> get_option a t i = Ok o ->
  exists f, d_handler (decl_of o) = Some f /\ single_handler f /\
    (f = HHelp \/ f = HVersion -> N.testbit (d_flags (decl_of o)) 5 = true).
Proof.
  intros (T & d & f & HT & Hd & Hf & Hs & Hq) Ho. apply get_option_Ok in Ho as (T' & HT' & Ho).
  unfold decls in HT. rewrite list_lookup_fmap, HT' in HT. injection HT as <-.
  rewrite list_lookup_fmap, Ho in Hd. injection Hd as <-. by exists f.
Qed.
Lemma swap_first a t i v t' i' v' a1 a2 : (t, i) <> (t', i') -> quiet_single (decls a) t i ->
  runs a t i v a1 -> runs a1 t' i' v' a2 -> exists b1, runs a t' i' v' b1 /\ runs b1 t i v a2.
Proof.
  intros N Hq R1 R2. destruct (exec_shape _ _ _ _ _ R1) as (o & act & o' & h' & ev & Ho & Ha & D1 & E1 & _ & S1).
  destruct (quiet_lookup _ _ _ _ Hq Ho) as (f & Hf & Hs & Hx). destruct (S1 f Hf Hs Hx) as (-> & -> & G1).
  assert (a1 = put_option a t i o') as ->.
  { rewrite E1. cbn. change (a_heap a) with (a_heap (put_option a t i o')). by rewrite heap_eta. }
  clear E1 R1 S1.
  destruct (exec_shape _ _ _ _ _ R2) as (o2 & act2 & o2' & h2 & ev2 & Ho2 & Ha2 & D2 & E2 & G2 & _).
  rewrite (active_put a t i o o' Ho D1) in Ha2. rewrite get_put_other in Ho2 by congruence.
  assert (act2 = act) as -> by congruence.
  assert (Rb : runs a t' i' v' (apply_events (set_heap (put_option a t' i' o2') h2) ev2)) by (by apply G2).
  exists (apply_events (set_heap (put_option a t' i' o2') h2) ev2). split; [done|].
  rewrite E2. change (set_heap (put_option (put_option a t i o') t' i' o2') h2) with (put_option (put_option (set_heap a h2) t i o') t' i' o2').
  rewrite put_comm by done. rewrite <- put_events. apply G1.
  - rewrite events_get. change (get_option (put_option a t' i' o2') t i = Ok o). by rewrite get_put_other.
  - exists act. rewrite active_events. change (get_active_options (put_option a t' i' o2') = Ok act).
    by rewrite (active_put a t' i' o2 o2' Ho2 D2).
Qed.
Lemma swap_second a t i v t' i' v' a1 a2 : (t, i) <> (t', i') -> quiet_single (decls a) t' i' ->
  runs a t i v a1 -> runs a1 t' i' v' a2 -> exists b1, runs a t' i' v' b1 /\ runs b1 t i v a2.
Proof.
  intros N Hq R1 R2. destruct (exec_shape _ _ _ _ _ R1) as (o & act & o' & h' & ev & Ho & Ha & D1 & E1 & G1 & _).
  destruct (exec_shape _ _ _ _ _ R2) as (o2 & act2 & o2' & h2 & ev2 & Ho2 & Ha2 & D2 & E2 & _ & S2).
  subst a1. rewrite active_events, active_heap, (active_put a t i o o' Ho D1) in Ha2.
  rewrite events_get in Ho2. change (get_option (put_option a t i o') t' i' = Ok o2) in Ho2. rewrite get_put_other in Ho2 by congruence.
  destruct (quiet_lookup _ _ _ _ Hq Ho2) as (f & Hf & Hs & Hx). destruct (S2 f Hf Hs Hx) as (-> & -> & G2).
  exists (put_option a t' i' o2'). split; [apply G2; [done|by exists act]|].
  rewrite E2. cbn [apply_events fold_left].
  rewrite events_heap. change (a_heap (set_heap (put_option a t i o') h')) with h'.
  assert (set_heap (put_option (apply_events (set_heap (put_option a t i o') h') ev) t' i' o2') h' =
    apply_events (set_heap (put_option (put_option a t' i' o2') t i o') h') ev) as ->.
  { rewrite put_events. change (put_option (set_heap (put_option a t i o') h') t' i' o2') with (set_heap (put_option (put_option a t i o') t' i' o2') h').
    rewrite put_comm by done. set (x := apply_events _ ev). assert (a_heap x = h') as Hx' by apply events_heap.
    rewrite <- Hx'. apply heap_eta. }
  apply G1; [|by rewrite (active_put a t' i' o2 o2' Ho2 D2)|done|done].
  by rewrite get_put_other.
Qed.

Lemma perform_call a t i v its a' : perform a (Call t i v :: its) = Ok (0, a') <->
  exists a1, runs a t i v a1 /\ perform a1 its = Ok (0, a').
Proof.
  cbn [perform]. unfold runs. destruct (execute_callbacks a t i v) as [[st a1]|]; cbn [rbind].
  - destruct (Z.eqb_spec st 0) as [->|Hn]; split.
    + intros E. by exists a1.
    + by intros (a2 & [= <-] & E).
    + intros [= -> _]. done.
    + intros (a2 & [= -> _] & _). done.
  - split; [done|]. by intros (? & ? & _).
Qed.
Lemma runs_decls a t i v a' : runs a t i v a' -> decls a' = decls a.
Proof. intros E. apply (sf_decls _ _ _ _ (execute_callbacks_frame _ _ _ _ _ _ E)). Qed.
Lemma exchange_performs D a its its' a' : decls a = D -> exchange D its its' -> perform a its = Ok (0, a') ->
  perform a its' = Ok (0, a').
Proof.
  intros HD [its1 t i v t' i' v' its2 N Hq]. revert a HD. induction its1 as [|x its1 IH]; intros a HD; cbn [app].
  - rewrite !perform_call. intros (a1 & R1 & E). apply perform_call in E as (a2 & R2 & E).
    assert (exists b1, runs a t' i' v' b1 /\ runs b1 t i v a2) as (b1 & S1 & S2).
    { rewrite <- HD in Hq. destruct Hq as [Hq|Hq]; [by eapply swap_first|by eapply swap_second]. }
    exists b1. split; [done|]. apply perform_call. by exists a2.
  - destruct x as [tx ix vx|tx ix|c m]; cbn [app].
    + rewrite !perform_call. intros (a1 & R1 & E). exists a1. split; [done|]. apply IH; [|done]. rewrite <- HD. by eapply runs_decls.
    + cbn [perform]. destruct (select a tx ix) as [a1|] eqn:Es; cbn [rbind]; [|done]. apply IH. rewrite <- HD.
      by pose proof (select_frame _ _ _ _ Es) as (_ & _ & _ & _ & _ & _ & Hd & _).
    + done.
Qed.
Lemma reordered_performs a its its' a' : reordered (decls a) its its' -> perform a its = Ok (0, a') -> perform a its' = Ok (0, a').
Proof. induction 1; [done|]. intros E. apply IHreordered. by eapply exchange_performs. Qed.
Lemma reordered_parse a argv argv' its its' a1 : subs_present (decls a) -> is_Some (decls a !! a_root a) ->
  reads (decls a) (a_root a) 0 false argv its -> reads (decls a) (a_root a) 0 false argv' its' ->
  reordered (decls a) its its' -> perform a its = Ok (0, a1) -> argus_parse a argv' = argus_parse a argv.
Proof.
  intros HD HT Hr Hr' Ho E. unfold argus_parse. rewrite (parse_reads _ _ _ _ _ _ HD HT Hr), (parse_reads _ _ _ _ _ _ HD HT Hr'), E.
  by rewrite (reordered_performs _ _ _ _ Ho E).
Qed.
End order.
