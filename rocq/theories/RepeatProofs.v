(** * Proofs: an option given again *)
From Verif Require Import Api LibProofs SpecGrammar SpecAfter SpecSafe FrameProofs GrammarProofs GrammarLemmas
  EnvProofs CallProofs WholeProofs IsolationProofs SpecValues SpecReuse SpecOrder SpecRepeat ExchangeProofs EnvLineProofs.
From Coq Require Import Lia.

Section repeat.
Context `{L : Libc}.

(** An entry that holds [x]. *)
Definition stored (o : opt) (x : uval) : opt :=
  Opt (decl_of o) x (is_allocated o) (if (value_count o =? 0)%nat then 1%nat else value_count o) (value_capacity o) true.
Lemma stored_twice o x y : stored (stored o x) y = stored o y.
Proof.
  unfold stored. cbn. f_equal. destruct (value_count o =? 0)%nat eqn:E; [done|]. by rewrite E.
Qed.

Lemma plain_shape a t i v a' o f : get_option a t i = Ok o -> d_handler (decl_of o) = Some f -> scalar f ->
  runs a t i v a' -> exists x, a' = put_option a t i (stored o x) /\
    forall b o2 act, get_option b t i = Ok o2 -> decl_of o2 = decl_of o -> get_active_options b = Ok act ->
      runs b t i v (put_option b t i (stored o2 x)).
Proof.
  intros Eo Ef Hs E. unfold runs, execute_callbacks in E. rewrite Eo in E. cbn [rbind] in E. rewrite Ef in E.
  destruct (match d_validators (decl_of o) with
            | None => Ok (SUCCESS, [])
            | Some l => run_validators ORDER_PRE l (ArgText v) (a_heap a) end) as [[st ev]|] eqn:Ev; cbn [rbind] in E; [|done].
  destruct (Z.eqb_spec st SUCCESS) as [->|Hst]; cbn [negb] in E; [|injection E as -> _; done].
  assert (ev = []) as ->.
  { destruct (d_validators (decl_of o)); [by eapply text_validators_silent|by injection Ev]. }
  change (apply_events a []) with a in E.
  destruct (get_active_options a) as [act|] eqn:Ea; cbn [rbind] in E; [|done].
  assert (Hrun : exists x, forall b o2 n, run_handler n f v (Hst o2 (a_heap b) []) = Ok (SUCCESS, Hst (with_value o2 x) (a_heap b) []) \/
     run_handler (default (a_root a) act) f v (Hst o (a_heap a) []) = UB NullDeref \/
     exists c s, c <> SUCCESS /\ run_handler (default (a_root a) act) f v (Hst o (a_heap a) []) = Ok (c, s)).
  { clear - Hs. destruct f; cbn; try (exfalso; revert Hs; unfold scalar; intuition discriminate).
    - eexists. intros b o2 n. left. reflexivity.
    - destruct v as [x|]; cbn.
      + destruct (string_to_bool x); cbn; [eexists; intros b' o2 n; left; reflexivity|].
        exists Indet. intros b' o2 n. right. right. eexists _, _. split; [|reflexivity]. done.
      + exists Indet. intros. right. right. eexists _, _. split; [|reflexivity]. done.
    - eexists. intros b o2 n. left. reflexivity.
    - destruct v as [x|]; cbn; [eexists; intros b o2 n; left; reflexivity|]. exists Indet. intros. right. left. reflexivity.
    - destruct v as [x|]; cbn; [eexists; intros b o2 n; left; reflexivity|]. exists Indet. intros. right. left. reflexivity. }
  destruct Hrun as [x Hrun].
  assert (Hrun' : forall b o2 n, run_handler n f v (Hst o2 (a_heap b) []) = Ok (SUCCESS, Hst (with_value o2 x) (a_heap b) [])).
  { intros b o2 n. destruct (Hrun b o2 n) as [R|[R|(c & s & Hc & R)]]; [done|rewrite R in E; done|].
    rewrite R in E. cbn [rbind] in E. destruct (Z.eqb_spec c SUCCESS); [done|]. cbn [negb] in E. injection E as -> _. done. }
  clear Hrun.
  assert (X : forall b o2 act, get_option b t i = Ok o2 -> decl_of o2 = decl_of o -> get_active_options b = Ok act ->
    execute_callbacks b t i v = (if has (d_flags (decl_of o)) FLAG_EXIT then Ok (SHOULD_EXIT, put_option b t i (stored o2 x))
      else Ok (SUCCESS, put_option b t i (stored o2 x)))).
  { intros b o2 act2 Hb Hd Hab. unfold execute_callbacks. rewrite Hb. cbn [rbind]. rewrite Hd, Ef.
    assert ((match d_validators (decl_of o) with
            | None => Ok (SUCCESS, [])
            | Some l => run_validators ORDER_PRE l (ArgText v) (a_heap b) end) = Ok (SUCCESS, [])) as ->.
    { rewrite <- Ev. destruct (d_validators (decl_of o)); [apply text_validators_heap|done]. }
    cbn [rbind]. change (negb (SUCCESS =? SUCCESS)) with false. cbv iota. change (apply_events b []) with b. rewrite Hab. cbn [rbind].
    rewrite Hrun'. cbn [rbind h_opt h_heap h_log]. change (negb (SUCCESS =? SUCCESS)) with false. cbv iota.
    change (apply_events (set_heap (put_option b t i (with_value o2 x)) (a_heap b)) []) with
      (set_heap (put_option b t i (with_value o2 x)) (a_heap (put_option b t i (with_value o2 x)))).
    rewrite heap_eta, (get_put_same b t i o2 (with_value o2 x) Hb). cbn [rbind].
    rewrite put_put.
    assert (Hst : (if (value_count (with_set (with_value o2 x) true) =? 0)%nat
      then with_count (with_set (with_value o2 x) true) 1 else with_set (with_value o2 x) true) = stored o2 x).
    { unfold stored. cbn. by destruct (value_count o2 =? 0)%nat. }
    rewrite Hst. cbn [decl_of stored]. by rewrite Hd. }
  assert (EX : has (d_flags (decl_of o)) FLAG_EXIT = false /\ a' = put_option a t i (stored o x)).
  { assert (E' : execute_callbacks a t i v = Ok (0, a')).
    { unfold execute_callbacks. rewrite Eo. cbn [rbind]. rewrite Ef, Ev. cbn [rbind].
      change (negb (SUCCESS =? SUCCESS)) with false. cbv iota. change (apply_events a []) with a. rewrite Ea. cbn [rbind]. exact E. }
    rewrite (X a o act Eo eq_refl Ea) in E'. destruct (has _ _); [done|]. injection E' as <-. done. }
  destruct EX as [EX ->]. exists x. split; [done|]. intros b o2 act2 Hb Hd Hab. unfold runs.
  rewrite (X b o2 act2 Hb Hd Hab), EX. done.
Qed.

Lemma plain_lookup a t i o : plain_entry (decls a) t i -> get_option a t i = Ok o ->
  exists f, d_handler (decl_of o) = Some f /\ scalar f.
Proof.
  intros (T & d & f & HT & Hd & Hf & Hs) Ho. apply get_option_Ok in Ho as (T' & HT' & Ho).
  unfold decls in HT. rewrite list_lookup_fmap, HT' in HT. injection HT as <-.
  rewrite list_lookup_fmap, Ho in Hd. injection Hd as <-. by exists f.
Qed.
Lemma plain_quiet D t i : plain_entry D t i -> quiet_single D t i.
Proof.
  intros (T & d & f & HT & Hd & Hf & Hs). exists T, d, f. split; [done|]. split; [done|]. split; [done|].
  unfold scalar in Hs. destruct Hs as [->|[->|[->|[->| ->]]]]; split; try done; intros [?|?]; done.
Qed.
Lemma runs_fun a t i v b b' : runs a t i v b -> runs a t i v b' -> b = b'.
Proof. unfold runs. congruence. Qed.
Lemma runs_start a t i v b : runs a t i v b -> exists o act, get_option a t i = Ok o /\ get_active_options a = Ok act.
Proof. intros R. destruct (exec_shape _ _ _ _ _ R) as (o & act & _ & _ & _ & Ho & Ha & _). eauto. Qed.

(** A later value of the same entry makes an earlier one disappear … *)
Lemma absorbed a t i v b v' c : plain_entry (decls a) t i -> runs a t i v b ->
  (runs b t i v' c <-> runs a t i v' c).
Proof.
  intros Hp R. destruct (runs_start _ _ _ _ _ R) as (o & act & Ho & Ha).
  destruct (plain_lookup _ _ _ _ Hp Ho) as (f & Hf & Hs).
  destruct (plain_shape _ _ _ _ _ _ _ Ho Hf Hs R) as (x & -> & _).
  assert (Ho2 : get_option (put_option a t i (stored o x)) t i = Ok (stored o x)) by (by eapply get_put_same).
  assert (Ha2 : get_active_options (put_option a t i (stored o x)) = Ok act).
  { by rewrite (active_put a t i o (stored o x) Ho eq_refl). }
  split; intros R'.
  - destruct (plain_shape _ _ _ _ _ _ f Ho2 Hf Hs R') as (y & -> & G).
    rewrite put_put, stored_twice. exact (G a o act Ho eq_refl Ha).
  - destruct (plain_shape _ _ _ _ _ _ f Ho Hf Hs R') as (y & -> & G).
    pose proof (G _ _ act Ho2 eq_refl Ha2) as R2. by rewrite put_put, stored_twice in R2.
Qed.
(** … also if other entries are given values in between. *)
Lemma given_again its2 : forall a t i v b w its3 a', calls_only its2 -> plain_entry (decls a) t i ->
  runs a t i v b ->
  perform b (its2 ++ Call t i w :: its3) = Ok (0, a') <-> perform a (its2 ++ Call t i w :: its3) = Ok (0, a').
Proof.
  induction its2 as [|y its2 IH]; intros a t i v b w its3 a' Hc Hp R; cbn [app].
  { rewrite !perform_call. split; intros (c & R1 & E); exists c; (split; [|done]); by eapply (absorbed a t i v b w c Hp R). }
  assert (Hc' : calls_only its2) by (intros z Hz; apply Hc; by right).
  destruct (Hc y) as (t' & i' & u & ->); [left|].
  rewrite !perform_call. destruct (decide ((t', i') = (t, i))) as [[= -> ->]|N].
  { split; intros (c & R1 & E); exists c; (split; [|done]); by eapply (absorbed a t i v b u c Hp R). }
  split; intros (c1 & R1 & E).
  - destruct (swap_first a t i v t' i' u b c1) as (b1 & S1 & S2); [congruence|by apply plain_quiet|done|done|].
    exists b1. split; [done|]. apply (IH b1 t i v c1 w its3 a'); [done| |done|done]. by rewrite (runs_decls _ _ _ _ _ S1).
  - destruct (runs_start _ _ _ _ _ R) as (o & act & Ho & Ha).
    destruct (plain_lookup _ _ _ _ Hp Ho) as (f & Hf & Hs).
    destruct (plain_shape _ _ _ _ _ _ _ Ho Hf Hs R) as (x & Eb & G).
    destruct (exec_shape _ _ _ _ _ R1) as (o2 & act2 & o2' & h2 & ev2 & Ho2 & Ha2 & D2 & E2 & _).
    assert (S : runs c1 t i v (put_option c1 t i (stored o x))).
    { subst c1. apply (G _ o act2); [|done|].
      - rewrite events_get. change (get_option (put_option a t' i' o2') t i = Ok o). by rewrite get_put_other by congruence.
      - rewrite active_events, active_heap. by rewrite (active_put a t' i' o2 o2' Ho2 D2). }
    destruct (swap_second a t' i' u t i v c1 _ N (plain_quiet _ _ _ Hp) R1 S) as (b' & S1 & S2).
    assert (b' = b) as -> by (by eapply runs_fun).
    exists (put_option c1 t i (stored o x)). split; [done|].
    apply (IH c1 t i v _ w its3 a'); [done| |done|done]. by rewrite (runs_decls _ _ _ _ _ R1).
Qed.

Lemma dropped a its1 t i v its2 w its3 a' : (forall c m, Reject c m ∉ its1) -> calls_only its2 -> plain_entry (decls a) t i ->
  perform a (its1 ++ Call t i v :: its2 ++ Call t i w :: its3) = Ok (0, a') ->
  perform a (its1 ++ its2 ++ Call t i w :: its3) = Ok (0, a').
Proof.
  intros Hr Hc Hp E. rewrite perform_app in E |- * by done.
  destruct (perform a its1) as [[st a1]|] eqn:E1; cbn [rbind] in E |- *; [|done].
  destruct (Z.eqb_spec st 0) as [->|]; [|congruence].
  apply perform_call in E as (b & R & E).
  apply (given_again its2 a1 t i v b w its3 a'); [done| |done|done].
  pose proof (perform_stack _ _ _ _ E1 Hr) as (P1 & P2 & P3 & _). congruence.
Qed.

(** All values once more *)
Lemma all_again its : forall its0 a b a', calls_only its0 -> calls_only its ->
  (forall t i v, Call t i v ∈ its0 -> plain_entry (decls a) t i /\ exists w, Call t i w ∈ its) ->
  perform a its0 = Ok (0, b) -> perform a its = Ok (0, a') -> perform b its = Ok (0, a').
Proof.
  induction its0 as [|y its0 IH]; intros a b a' Hc0 Hc Hp E0 E; [by injection E0 as <-|].
  destruct (Hc0 y) as (t & i & v & ->); [left|].
  apply perform_call in E0 as (a1 & R & E0).
  destruct (Hp t i v) as (Hpl & w & Hw); [left|].
  apply elem_of_list_split in Hw as (its2 & its3 & ->).
  apply (IH a1 b a'); [intros z Hz; apply Hc0; by right|done| |done|].
  - intros t1 i1 v1 H1. rewrite (runs_decls _ _ _ _ _ R). apply (Hp t1 i1 v1). by right.
  - apply (given_again its2 a t i v a1 w its3 a'); [|done|done|done].
    intros z Hz. apply Hc. apply elem_of_app. by left.
Qed.
Lemma twice its a a' : calls_only its -> (forall t i v, Call t i v ∈ its -> plain_entry (decls a) t i) ->
  perform a its = Ok (0, a') -> perform a' its = Ok (0, a').
Proof.
  intros Hc Hp E. apply (all_again its its a a' a'); [done|done| |done|done].
  intros t i v Hv. split; [by eapply Hp|by exists v].
Qed.
End repeat.

Lemma again `{L : Libc} a argv its a1 a' : fresh a ->
  reads (decls a) (a_root a) 0 false argv its ->
  (forall x, x ∈ its -> exists t i v, x = Call t i v /\ plain_entry (decls a) t i) ->
  perform a its = Ok (0, a1) -> env_items a1 = [] ->
  argus_parse a argv = Ok (Returned 0, a') -> argus_parse a' argv = Ok (Returned 0, a').
Proof.
  intros F R Hcp P X E.
  assert (Hc : calls_only its) by (intros x Hx; destruct (Hcp x Hx) as (t & i & v & -> & _); eauto).
  assert (Hp : forall t i v, Call t i v ∈ its -> plain_entry (decls a) t i).
  { intros t i v Hx. destruct (Hcp _ Hx) as (t' & i' & v' & [= -> -> ->] & Y). exact Y. }
  destruct (parse_ends a argv _ _ F E) as (its1 & R1 & D).
  assert (its1 = its) as -> by (eapply reads_unique; eauto).
  destruct D as [D|[D|[D|[D|D]]]].
  1:{ destruct D as (? & _ & Y & _). done. }
  1:{ destruct D as (c & ? & C & _ & _ & Y & _). congruence. }
  1:{ destruct D as (? & c & ? & ? & _ & C & _ & Y & _). congruence. }
  1:{ destruct D as (? & c & ? & ? & _ & _ & C & _ & Y & _). congruence. }
  destruct D as (b1 & P1 & P2 & _ & _). assert (b1 = a1) as -> by congruence.
  rewrite X in P2. injection P2 as <-.
  pose proof F as [Hst Herr HR HS Hac Hnm].
  assert (NR : forall c m, Reject c m ∉ its) by (by apply calls_no_reject).
  pose proof (perform_frame _ _ _ _ Hc P) as (Q5 & Q4 & Q3 & Q1 & _).
  pose proof (twice its a a1 Hc Hp P) as T2.
  assert (F1 : fresh a1).
  { constructor.
    - congruence.
    - by rewrite (perform_err _ _ _ P NR).
    - by rewrite Q1, Q5.
    - by rewrite Q1.
    - by rewrite Q1, Q5.
    - by eapply decls_named. }
  assert (E1 : argus_parse a argv = ending a1) by (apply (parse_ending a argv its a1 a1 F R P); by rewrite X).
  rewrite <- E, E1. apply (parse_ending a1 argv its a1 a1 F1); [|done|by rewrite X].
  by rewrite Q1, Q5.
Qed.

(** Two lines one after the other *)
Lemma succeeded `{L : Libc} a argv its a1 a' : fresh a ->
  reads (decls a) (a_root a) 0 false argv its -> perform a its = Ok (0, a1) ->
  argus_parse a argv = Ok (Returned 0, a') -> perform a1 (env_items a1) = Ok (0, a').
Proof.
  intros F R P E. destruct (parse_ends a argv _ _ F E) as (its1 & R1 & D).
  assert (its1 = its) as -> by (eapply reads_unique; eauto).
  destruct D as [D|[D|[D|[D|D]]]].
  - destruct D as (? & _ & Y & _). done.
  - destruct D as (c & ? & C & _ & _ & Y & _). congruence.
  - destruct D as (? & c & ? & ? & _ & C & _ & Y & _). congruence.
  - destruct D as (? & c & ? & ? & _ & _ & C & _ & Y & _). congruence.
  - destruct D as (b1 & P1 & P2 & _ & _). congruence.
Qed.
Lemma successive `{L : Libc} a argv1 argv2 its a0 a1 : fresh a ->
  leads (decls a) (a_root a) 0 false argv1 (a_root a) 0 false its ->
  perform a its = Ok (0, a0) -> env_items a0 = [] -> argus_parse a argv1 = Ok (Returned 0, a1) ->
  argus_parse a1 argv2 = argus_parse a (argv1 ++ argv2).
Proof.
  intros F [HL NR] P X E. pose proof F as [Hst Herr HR HS Hac Hnm].
  assert (R1 : reads (decls a) (a_root a) 0 false argv1 its).
  { rewrite <- (app_nil_r argv1), <- (app_nil_r its). apply HL. constructor. }
  pose proof (succeeded _ _ _ _ _ F R1 P E) as Y. rewrite X in Y. injection Y as ->.
  pose proof (perform_stack _ _ _ _ P NR) as (Q5 & _ & Q1 & _).
  destruct (reads_total _ _ 0%nat false argv2 HS HR) as [its2 R2].
  pose proof (HL _ _ R2) as R12.
  unfold argus_parse.
  rewrite (argus_parse_perform a (argv1 ++ argv2) (its ++ its2) HS HR R12).
  assert (R2' : reads (decls a1) (a_root a1) 0 false argv2 its2) by (by rewrite Q1, Q5).
  rewrite (argus_parse_perform a1 argv2 its2); [|by rewrite Q1|by rewrite Q1, Q5|done].
  rewrite perform_app by done. rewrite P. cbn [rbind]. done.
Qed.
(** An earlier value left out *)
Lemma left_out `{L : Libc} a argv argv' its1 t i v its2 w its3 a' : fresh a ->
  reads (decls a) (a_root a) 0 false argv (its1 ++ Call t i v :: its2 ++ Call t i w :: its3) ->
  reads (decls a) (a_root a) 0 false argv' (its1 ++ its2 ++ Call t i w :: its3) ->
  plain_entry (decls a) t i -> (forall t' i', Enter t' i' ∉ its2) ->
  argus_parse a argv = Ok (Returned 0, a') -> argus_parse a argv' = Ok (Returned 0, a').
Proof.
  intros F R R' Hp He E. pose proof F as [Hst Herr HR HS Hac Hnm].
  assert (exists a1, perform a (its1 ++ Call t i v :: its2 ++ Call t i w :: its3) = Ok (0, a1)) as [a1 P].
  { destruct (parse_ends a argv _ _ F E) as (its & R1 & D). rewrite (reads_unique _ _ _ _ _ _ _ R R1).
    destruct D as [D|[D|[D|[D|D]]]].
    - destruct D as (? & _ & Y & _). done.
    - destruct D as (c & ? & C & _ & _ & Y & _). congruence.
    - destruct D as (? & c & ? & ? & _ & C & _ & Y & _). congruence.
    - destruct D as (? & c & ? & ? & _ & _ & C & _ & Y & _). congruence.
    - destruct D as (b1 & P1 & _). by exists b1. }
  destruct (parsed_stack a argv _ 0 a1 HS HR Hac Hst R P) as (_ & _ & _ & _ & _ & _ & NR).
  rewrite <- E, (parse_goes_on _ _ _ _ HS HR R P).
  apply (parse_goes_on a argv' (its1 ++ its2 ++ Call t i w :: its3) a1 HS HR R').
  eapply dropped; [| |exact Hp|exact P].
  - intros c m X. apply (NR c m). apply elem_of_app. by left.
  - intros x Hx. destruct x as [t1 i1 v1|t1 i1|c m]; [eauto|by destruct (He t1 i1)|].
    destruct (NR c m). apply elem_of_app. right. right. apply elem_of_app. by left.
Qed.
