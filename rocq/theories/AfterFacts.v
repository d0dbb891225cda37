(** * Consequences used by the properties C11-C12, C21-C30, C33, C37 *)
From Verif Require Import Validate Api LibProofs FrameProofs SpecGrammar GrammarProofs GrammarLemmas
  ActiveProofs SpecAfter SpecValues AfterProofs EnvProofs CallProofs WholeProofs ValueProofs.
From Coq Require Import Lia.

Lemma entry_get a t i o : entry a t i o <-> get_option a t i = Ok o.
Proof. unfold entry. split; intros E; [by apply get_option_Ok|by apply get_option_Ok in E]. Qed.
Lemma entry_fun a t i o o' : entry a t i o -> entry a t i o' -> o = o'.
Proof. rewrite !entry_get. congruence. Qed.
Lemma entry_decls a t i o : entry a t i o -> exists T, decls a !! t = Some T /\ T !! i = Some (decl_of o).
Proof.
  intros (T & HT & Ho). exists (map decl_of T). unfold decls.
  rewrite list_lookup_fmap, HT. split; [done|]. by rewrite list_lookup_fmap, Ho.
Qed.
Lemma decls_entry a t T i d : decls a !! t = Some T -> T !! i = Some d ->
  exists o, entry a t i o /\ decl_of o = d.
Proof.
  unfold decls. rewrite list_lookup_fmap. intros HT Hd.
  destruct (a_tabs a !! t) as [T'|] eqn:ET; [|done]. injection HT as <-.
  rewrite list_lookup_fmap in Hd. destruct (T' !! i) as [o|] eqn:Eo; [|done]. injection Hd as <-.
  exists o. split; [by exists T'|done].
Qed.
Lemma entry_same_decl a a' t i o : decls a' = decls a -> entry a t i o ->
  exists o', entry a' t i o' /\ decl_of o' = decl_of o.
Proof.
  intros Hd He. apply entry_decls in He as (T & HT & Ho). rewrite <- Hd in HT. by eapply decls_entry.
Qed.

Section libc.
Context `{Libc}.

(** ** Success means all in order *)
Lemma success_in_order a argv a' t i o : fresh a -> argus_parse a argv = Ok (Returned 0, a') ->
  in_play a' t -> entry a' t i o ->
  exists T, a_tabs a' !! t = Some T /\ T !! i = Some o /\ in_order (a_heap a') T i o.
Proof.
  intros Hf E Hp (T & HT & Ho).
  apply parse_success in E as (its & _ & _ & _ & _ & _ & _ & _ & _ & Hio); [|done].
  destruct (Hio t Hp) as (T' & HT' & Hio'). assert (T' = T) as -> by congruence.
  exists T. split; [done|]. split; [done|]. by apply Hio'.
Qed.
Lemma required_set a argv a' t i o : fresh a -> argus_parse a argv = Ok (Returned 0, a') ->
  in_play a' t -> entry a' t i o -> required_positional o -> is_set o = true.
Proof.
  intros Hf E Hp Ho Hr. destruct (success_in_order _ _ _ _ _ _ Hf E Hp Ho) as (T & _ & _ & []). auto.
Qed.
Lemma requirements_met a argv a' t i o T n j p : fresh a -> argus_parse a argv = Ok (Returned 0, a') ->
  in_play a' t -> entry a' t i o -> is_set o = true -> ~ group_entry o ->
  a_tabs a' !! t = Some T -> first (named n) T j -> T !! j = Some p ->
  (n ∈ default [] (d_require (decl_of o)) -> is_set p = true) /\
  (n ∈ default [] (d_conflict (decl_of o)) -> is_set p = false).
Proof.
  intros Hf E Hp Ho Hs Hg HT Hn Hj.
  destruct (success_in_order _ _ _ _ _ _ Hf E Hp Ho) as (T' & HT' & _ & [_ _ _ Hr Hc]).
  assert (T' = T) as -> by congruence. split; intros Hin.
  - destruct (is_set p) eqn:Ep; [done|]. destruct (Hr Hg Hs n Hin). exists j, p. done.
  - destruct (is_set p) eqn:Ep; [|done]. destruct (Hc Hg Hs n Hin). exists j, p. done.
Qed.
Lemma one_member a argv a' t T g G i j o p : fresh a -> argus_parse a argv = Ok (Returned 0, a') ->
  in_play a' t -> a_tabs a' !! t = Some T -> T !! g = Some G -> exclusive_group G ->
  member T g i -> member T g j -> T !! i = Some o -> T !! j = Some p ->
  is_set o = true -> is_set p = true -> i = j.
Proof.
  intros Hf E Hp HT HG Hx Hi Hj Ho Hpp Hso Hsp.
  destruct (lt_eq_lt_dec i j) as [[Hlt|?]|Hlt]; [|done|]; exfalso.
  - destruct (success_in_order a argv a' t j p Hf E Hp) as (T' & HT' & _ & [_ He _ _ _]); [by exists T|].
    assert (T' = T) as -> by congruence. apply (He Hsp).
    exists g, G, i, o. split_and!; try done; apply Hi || done.
  - destruct (success_in_order a argv a' t i o Hf E Hp) as (T' & HT' & _ & [_ He _ _ _]); [by exists T|].
    assert (T' = T) as -> by congruence. apply (He Hso).
    exists g, G, j, p. split_and!; try done; apply Hj || done.
Qed.
Lemma validators_accept a argv a' t i o e : fresh a -> argus_parse a argv = Ok (Returned 0, a') ->
  in_play a' t -> entry a' t i o -> is_set o = true -> ~ group_entry o ->
  e ∈ validators (decl_of o) -> v_order e = ORDER_POST -> accepts_option (v_fun e) o (a_heap a').
Proof.
  intros Hf E Hp Ho Hs Hg He Hord.
  destruct (success_in_order _ _ _ _ _ _ Hf E Hp Ho) as (T & _ & _ & []). by apply io_validated.
Qed.

(** ** Texts that reached a handler *)
Lemma perform_accepts its : forall a a' t i v T d e, perform a its = Ok (0, a') ->
  (forall c m, Reject c m ∉ its) -> Call t i v ∈ its ->
  decls a !! t = Some T -> T !! i = Some d -> e ∈ validators d -> v_order e = ORDER_PRE ->
  accepts_text (v_fun e) v.
Proof.
  induction its as [|x its IH]; intros a a' t i v T d e E Hr Hc HT Hd He Ho; [by apply elem_of_nil in Hc|].
  cbn [perform] in E.
  assert (Hr' : forall c m, Reject c m ∉ its) by (intros c m Hx; apply (Hr c m); by right).
  destruct x as [t0 i0 v0|t0 i0|c m]; [..|destruct (Hr c m); left].
  - apply rbind_Ok in E as ([st1 a1] & E1 & E). cbv beta iota in E.
    destruct (Z.eqb_spec st1 0) as [->|]; [|congruence].
    pose proof (execute_callbacks_frame _ _ _ _ _ _ E1) as [_ _ _ Fd _].
    apply elem_of_cons in Hc as [[= -> -> ->]|Hc].
    + apply call_ok in E1 as (o & f & act & s & Hg & _ & Hpre & _).
      destruct (decls_entry _ _ _ _ _ HT Hd) as (o' & Ho' & Hd'). apply entry_get in Ho'.
      assert (o' = o) as -> by congruence. rewrite <- Hd' in He. auto.
    + eapply IH; [exact E|done|exact Hc| |exact Hd|done|done]. by rewrite Fd.
  - apply rbind_Ok in E as (a1 & E1 & E). apply select_decls in E1.
    apply elem_of_cons in Hc as [[=]|Hc].
    eapply IH; [exact E|done|exact Hc| |exact Hd|done|done]. by rewrite E1.
Qed.

(** ** Marks and values *)
Lemma touches_dec t i x : {touches t i x} + {~ touches t i x}.
Proof.
  destruct x as [t' i' v|t' i'|c].
  - destruct (decide (t' = t)) as [->|]; [destruct (decide (i' = i)) as [->|]|].
    + left. left. eauto.
    + right. intros [[? [=]]|[=]]; done.
    + right. intros [[? [=]]|[=]]; done.
  - destruct (decide (t' = t)) as [->|]; [destruct (decide (i' = i)) as [->|]|].
    + left. by right.
    + right. intros [[? [=]]|[=]]; done.
    + right. intros [[? [=]]|[=]]; done.
  - right. intros [[? [=]]|[=]].
Qed.

Lemma perform_marks its : forall a a' t i o o', perform a its = Ok (0, a') ->
  (forall c m, Reject c m ∉ its) -> entry a t i o -> entry a' t i o' ->
  is_set o' = true <-> is_set o = true \/ exists x, x ∈ its /\ touches t i x.
Proof.
  induction its as [|x its IH]; intros a a' t i o o' E Hr Ho Ho'; cbn [perform] in E.
  { injection E as <-. rewrite (entry_fun _ _ _ _ _ Ho Ho'). split; [by left|].
    intros [?|(x & Hx & _)]; [done|by apply elem_of_nil in Hx]. }
  assert (Hr' : forall c m, Reject c m ∉ its) by (intros c m Hx; apply (Hr c m); by right).
  assert (Hnext : forall a1 o1, entry a1 t i o1 -> perform a1 its = Ok (0, a') ->
    (is_set o1 = true <-> is_set o = true \/ touches t i x) ->
    is_set o' = true <-> is_set o = true \/ exists y, y ∈ x :: its /\ touches t i y).
  { intros a1 o1 Ho1 E1 Hx. rewrite (IH _ _ _ _ _ _ E1 Hr' Ho1 Ho'), Hx. split.
    - intros [[?|?]|(y & ? & ?)]; [by left|right; exists x; split; [left|done]|right; exists y; split; [by right|done]].
    - intros [?|(y & Hy & ?)]; [by left; left|]. apply elem_of_cons in Hy as [->|Hy]; [by left; right|right; eauto]. }
  destruct x as [t0 i0 v0|t0 i0|c m]; [..|destruct (Hr c m); left].
  - apply rbind_Ok in E as ([st1 a1] & E1 & E). cbv beta iota in E.
    destruct (Z.eqb_spec st1 0) as [->|]; [|congruence].
    pose proof (execute_callbacks_frame _ _ _ _ _ _ E1) as [_ _ _ Fd Fo].
    destruct (decide ((t, i) = (t0, i0))) as [[= <- <-]|Hne].
    + apply call_ok in E1 as (o1 & f & act & s & Hg & _ & _ & _ & _ & _ & Hg' & _).
      apply (Hnext a1 (marked (h_opt s))); [by apply entry_get|done|].
      split; [intros _; right; left; eauto|intros _].
      unfold marked. simpl. by destruct (_ =? 0)%nat.
    + apply (Hnext a1 o); [apply entry_get; rewrite Fo by done; by apply entry_get|done|].
      split; [by left|]. intros [?|[[v [= -> -> ->]]|[=]]]; done.
  - apply rbind_Ok in E as (a1 & E1 & E).
    apply select_frame in E1 as (_ & _ & _ & _ & _ & _ & _ & o1 & Hg & Hg' & Fo).
    destruct (decide ((t, i) = (t0, i0))) as [[= <- <-]|Hne].
    + apply (Hnext a1 (with_set o1 true)); [by apply entry_get|done|].
      split; [intros _; right; by right|done].
    + apply (Hnext a1 o); [apply entry_get; rewrite Fo by done; by apply entry_get|done|].
      split; [by left|]. intros [?|[[v [=]]|[= -> ->]]]; done.
Qed.

Lemma perform_last its1 its2 a a' t i v : perform a (its1 ++ Call t i v :: its2) = Ok (0, a') ->
  (forall c m, Reject c m ∉ its1 ++ Call t i v :: its2) ->
  (forall x, x ∈ its2 -> ~ touches t i x) ->
  exists o f s act h0, decl_of o = decl_of (h_opt s) /\ d_handler (decl_of o) = Some f /\
    run_handler act f v (Hst o h0 []) = Ok (0, s) /\ entry a' t i (marked (h_opt s)).
Proof.
  intros E Hr Hn. apply perform_split in E as (a1 & _ & E); [|intros c m Hc; apply (Hr c m), elem_of_app; by left].
  cbn [perform] in E. apply rbind_Ok in E as ([st1 a2] & E1 & E). cbv beta iota in E.
  destruct (Z.eqb_spec st1 0) as [->|]; [|congruence].
  apply call_ok in E1 as (o & f & act & s & Hg & Hf & _ & _ & Hrun & Hd & Hg' & _).
  exists o, f, s, (default (a_root a1) act), (a_heap a1). split_and!; try done.
  apply entry_get. rewrite <- Hg'. by eapply perform_untouched.
Qed.

Lemma scalar_last its1 its2 a a' t i v T d f : perform a (its1 ++ Call t i v :: its2) = Ok (0, a') ->
  (forall c m, Reject c m ∉ its1 ++ Call t i v :: its2) ->
  (forall x, x ∈ its2 -> ~ touches t i x) ->
  decls a !! t = Some T -> T !! i = Some d -> d_handler d = Some f -> scalar f ->
  exists x o', denoted f v x /\ entry a' t i o' /\ value o' = x /\ decl_of o' = d /\ is_set o' = true.
Proof.
  intros E Hr Hn HT Hd Hf Hs. pose proof (perform_decls _ _ _ _ E) as Hde.
  apply perform_last in E as (o & f' & s & act & h0 & Hdo & Hf' & Hrun & He); [|done|done].
  destruct (decls_entry _ _ _ _ _ HT Hd) as (o0 & Ho0 & Hd0).
  destruct (entry_same_decl _ _ _ _ _ Hde Ho0) as (o1 & Ho1 & Hd1).
  pose proof (entry_fun _ _ _ _ _ Ho1 He) as ->.
  assert (Hm : decl_of (marked (h_opt s)) = decl_of (h_opt s)) by (unfold marked; simpl; by destruct (_ =? 0)%nat).
  assert (f' = f) as -> by congruence.
  apply scalar_run in Hrun as [(_ & _ & x & Hx & Hopt)|(_ & _ & [=] & _)]; [|done].
  exists x, (marked (h_opt s)). split_and!; try done.
  - rewrite Hopt. unfold marked. simpl. by destruct (_ =? 0)%nat.
  - congruence.
  - unfold marked. simpl. by destruct (_ =? 0)%nat.
Qed.

(** ** Environment items *)
Lemma env_calls_mem prefix t T : forall k i v, Call t i v ∈ env_calls prefix t k T ->
  exists o, T !! (i - k)%nat = Some o /\ (k <= i)%nat /\ v = from_env prefix o /\ is_Some v.
Proof.
  induction T as [|o T IH]; intros k i v Hx; simpl in Hx; [by apply elem_of_nil in Hx|].
  apply elem_of_app in Hx as [Hx|Hx].
  - destruct (from_env prefix o) as [w|] eqn:Ew; [|by apply elem_of_nil in Hx].
    apply elem_of_list_singleton in Hx. injection Hx as -> ->.
    exists o. rewrite Nat.sub_diag. eauto.
  - apply IH in Hx as (o' & Ho' & Hle & Hv). exists o'.
    replace (i - k)%nat with (S (i - S k))%nat by lia. split; [done|]. split; [lia|done].
Qed.
Lemma env_calls_split prefix t T : forall k i o v, T !! i = Some o -> from_env prefix o = Some v ->
  exists l1 l2, env_calls prefix t k T = l1 ++ Call t (k + i) (Some v) :: l2 /\
    forall w, Call t (k + i) w ∉ l2.
Proof.
  induction T as [|o0 T IH]; intros k i o v Hi Hv; [done|]. cbn [env_calls].
  destruct i as [|i].
  - injection Hi as ->. rewrite Hv. exists [], (env_calls prefix t (S k) T). rewrite Nat.add_0_r.
    split; [done|]. intros w Hw. apply env_calls_at in Hw as [_ Hw]. lia.
  - destruct (IH (S k) i o v Hi Hv) as (l1 & l2 & -> & Hn).
    replace (k + S i)%nat with (S k + i)%nat by lia.
    exists (match from_env prefix o0 with Some v0 => [Call t k (Some v0)] | None => [] end ++ l1), l2.
    split; [by rewrite app_assoc|done].
Qed.
Lemma env_items_mem a t i v : Call t i v ∈ env_items a ->
  t ∈ tables_in_play a /\ exists o, entry a t i o /\ v = from_env (a_prefix a) o /\ is_Some v.
Proof.
  rewrite env_items_of. unfold env_of. intros Hx. apply elem_of_list_In, in_concat in Hx as (l & Hl & Hx).
  apply in_map_iff in Hl as (t' & <- & Ht'). apply elem_of_list_In in Hx, Ht'.
  pose proof (env_calls_at _ _ _ _ _ _ _ Hx) as [-> _]. split; [done|].
  apply env_calls_mem in Hx as (o & Ho & _ & Hv). exists o. split; [|done].
  destruct (a_tabs a !! t') as [T|] eqn:ET; simpl in Ho; [|done]. exists T. rewrite Nat.sub_0_r in Ho. done.
Qed.
Lemma env_items_no_enter a t i : Enter t i ∉ env_items a.
Proof.
  intros Hx. rewrite env_items_of in Hx. destruct (env_of_calls _ _ _ _ Hx) as (? & ? & ? & [=]).
Qed.
Lemma env_of_other tabs prefix ts t i v : t ∉ ts -> Call t i v ∉ env_of tabs prefix ts.
Proof.
  intros Hn Hx. unfold env_of in Hx. apply elem_of_list_In, in_concat in Hx as (l & Hl & Hx).
  apply in_map_iff in Hl as (t' & <- & Ht'). apply elem_of_list_In in Hx, Ht'.
  apply env_calls_at in Hx as [-> _]. done.
Qed.
Lemma env_items_split a t i o v : NoDup (tables_in_play a) -> t ∈ tables_in_play a ->
  entry a t i o -> from_env (a_prefix a) o = Some v ->
  exists l1 l2, env_items a = l1 ++ Call t i (Some v) :: l2 /\ forall x, x ∈ l2 -> ~ touches t i x.
Proof.
  intros Hnd Ht (T & HT & Ho) Hv.
  apply elem_of_list_split in Ht as (ts1 & ts2 & Hts). rewrite Hts in Hnd.
  destruct (env_calls_split (a_prefix a) t T 0 i o v Ho Hv) as (l1 & l2 & Ec & Hn).
  change (0 + i)%nat with i in *.
  assert (E : env_items a = (env_of (a_tabs a) (a_prefix a) ts1 ++ l1) ++ Call t i (Some v) ::
                            (l2 ++ env_of (a_tabs a) (a_prefix a) ts2)).
  { rewrite env_items_of, Hts. unfold env_of at 1. rewrite map_app, concat_app. cbn [map concat].
    cbv beta. rewrite HT. change (default [] (Some T)) with T. rewrite Ec. rewrite <- !app_assoc. done. }
  exists (env_of (a_tabs a) (a_prefix a) ts1 ++ l1), (l2 ++ env_of (a_tabs a) (a_prefix a) ts2).
  split; [done|]. intros x Hx [[w ->]| ->].
  - apply elem_of_app in Hx as [Hx|Hx]; [by apply (Hn w)|].
    eapply env_of_other; [|exact Hx]. apply NoDup_app in Hnd as (_ & _ & Hnd).
    by apply NoDup_cons in Hnd as [? _].
  - apply (env_items_no_enter a t i). rewrite E. apply elem_of_app. right. by right.
Qed.

(** ** Command line, environment, default *)
Lemma success_parts a argv a' its : fresh a -> argus_parse a argv = Ok (Returned 0, a') ->
  reads (decls a) (a_root a) 0 false argv its ->
  exists a1, perform a its = Ok (0, a1) /\ perform a (its ++ env_items a1) = Ok (0, a') /\
    (forall c m, Reject c m ∉ its ++ env_items a1) /\ (forall c m, Reject c m ∉ its) /\
    NoDup (tables_in_play a1) /\
    (forall t, in_play a' t <-> t ∈ tables_in_play a1) /\
    a_prefix a1 = a_prefix a /\ decls a1 = decls a /\ decls a' = decls a /\ a_stack a' = entered its.
Proof.
  intros Hf E Hr. pose proof Hf as [Hst Herr HR HS Hac Hnm].
  apply parse_success in E as (its' & (its1 & a1 & Hr1 & Hp & ->) & Hall & Hrj & Hd & Hroot & Hpre & _ & Hstk & _); [|done].
  assert (its1 = its) as -> by (by eapply reads_unique).
  destruct (parsed_stack a argv its 0 a1 HS HR Hac Hst Hr Hp) as (Q1 & Q2 & Q3 & Q4 & Q5 & Q6 & Q7).
  assert (Hs : entered (its ++ env_items a1) = entered its).
  { rewrite entered_app. assert (entered (env_items a1) = []) as ->; [|by rewrite app_nil_r].
    assert (Hc : calls_only (env_items a1)) by apply env_of_calls.
    clear -Hc. induction (env_items a1) as [|x l IH]; [done|].
    destruct (Hc x) as (? & ? & ? & ->); [left|]. cbn. apply IH. intros y Hy. apply Hc. by right. }
  exists a1. split_and!; try done; [|by rewrite Hstk].
  intros t. unfold in_play, tables_in_play. rewrite elem_of_cons, elem_of_list_omap.
  rewrite Hroot, Hd, Hstk, Hs, Q3, Q4, Q5. done.
Qed.

Lemma command_line_wins a argv a' its1 its2 t i v T d f :
  fresh a -> argus_parse a argv = Ok (Returned 0, a') ->
  reads (decls a) (a_root a) 0 false argv (its1 ++ Call t i v :: its2) ->
  (forall x, x ∈ its2 -> ~ touches t i x) ->
  decls a !! t = Some T -> T !! i = Some d -> d_handler d = Some f -> scalar f ->
  N.testbit (d_flags d) 6 = false ->
  exists x o', denoted f v x /\ entry a' t i o' /\ value o' = x.
Proof.
  intros Hf E Hr Hn HT Hd Hh Hs Hov.
  destruct (success_parts _ _ _ _ Hf E Hr) as (a1 & Hp & Hall & Hrj & Hrj1 & Hnd & Hip & Hpre & Hd1 & Hd' & _).
  rewrite <- app_assoc in Hall, Hrj. cbn [app] in Hall, Hrj.
  destruct (scalar_last its1 (its2 ++ env_items a1) a a' t i v T d f) as (x & o' & ? & ? & ? & _); try done; [|eauto].
  intros y Hy. apply elem_of_app in Hy as [Hy|Hy]; [by apply Hn|]. intros [[w ->]| ->].
  - apply env_items_mem in Hy as (_ & o & Ho & Hw & [w' Hw']).
    destruct (decls_entry _ _ _ _ _ HT Hd) as (o0 & Ho0 & Hdo).
    destruct (entry_same_decl _ _ _ _ _ Hd1 Ho0) as (o1 & Ho1 & Hd1').
    pose proof (entry_fun _ _ _ _ _ Ho1 Ho) as ->.
    assert (Hset : is_set o = true).
    { eapply perform_marks; [exact Hp|exact Hrj1|exact Ho0|exact Ho|]. right. exists (Call t i v).
      split; [apply elem_of_app; right; left|]. left. eauto. }
    unfold from_env in Hw. rewrite Hset in Hw.
    assert (N.testbit (d_flags (decl_of o)) 6 = false) as Hov' by congruence. rewrite Hov' in Hw. simpl in Hw.
    destruct (d_type (decl_of o)); congruence.
  - by apply env_items_no_enter in Hy.
Qed.

Lemma environment_wins a argv a' its t i o f n v :
  fresh a -> argus_parse a argv = Ok (Returned 0, a') ->
  reads (decls a) (a_root a) 0 false argv its ->
  in_play a' t -> entry a t i o -> d_handler (decl_of o) = Some f -> scalar f ->
  d_type (decl_of o) = TOption \/ d_type (decl_of o) = TPositional ->
  env_variable (a_prefix a) (decl_of o) = Some n -> getenv n = Some v ->
  flag 6 o \/ (is_set o = false /\ forall x, x ∈ its -> ~ touches t i x) ->
  exists x o', denoted f (Some v) x /\ entry a' t i o' /\ value o' = x.
Proof.
  intros Hf E Hr Hip Ho Hh Hs Hty Hn Hv Hcase.
  destruct (success_parts _ _ _ _ Hf E Hr) as (a1 & Hp & Hall & Hrj & Hrj1 & Hnd & Hip1 & Hpre & Hd1 & Hd' & _).
  destruct (entry_same_decl _ _ _ _ _ Hd1 Ho) as (o1 & Ho1 & Hdo1).
  assert (Hfe : from_env (a_prefix a1) o1 = Some v).
  { unfold from_env. rewrite Hpre, Hdo1, Hn, Hv.
    assert (is_set o1 && negb (N.testbit (d_flags (decl_of o)) 6) = false) as ->.
    { destruct Hcase as [Hc|[Hc Hno]].
      - unfold flag in Hc. rewrite Hc. by rewrite andb_false_r.
      - assert (entry a1 t i o) as Hsame.
        { apply entry_get. rewrite (perform_untouched _ _ _ _ _ _ Hp Hno). by apply entry_get. }
        rewrite (entry_fun _ _ _ _ _ Ho1 Hsame), Hc. done. }
    destruct Hty as [-> | ->]; done. }
  destruct (env_items_split a1 t i o1 v Hnd) as (l1 & l2 & He & Hl2); [by apply Hip1|done|done|].
  rewrite He in Hall, Hrj. rewrite app_assoc in Hall, Hrj.
  destruct (entry_decls _ _ _ _ Ho) as (T & HT & Hi).
  destruct (scalar_last (its ++ l1) l2 a a' t i (Some v) T (decl_of o) f) as (x & o' & ? & ? & ? & _); try done.
  eauto.
Qed.

Lemma not_supplied a argv a' its t i o :
  fresh a -> argus_parse a argv = Ok (Returned 0, a') ->
  reads (decls a) (a_root a) 0 false argv its -> (forall x, x ∈ its -> ~ touches t i x) ->
  entry a t i o -> from_env (a_prefix a) o = None -> entry a' t i o.
Proof.
  intros Hf E Hr Hno Ho Hfe.
  destruct (success_parts _ _ _ _ Hf E Hr) as (a1 & Hp & Hall & Hrj & Hrj1 & Hnd & Hip1 & Hpre & Hd1 & Hd' & _).
  assert (Ho1 : entry a1 t i o).
  { apply entry_get. rewrite (perform_untouched _ _ _ _ _ _ Hp Hno). by apply entry_get. }
  apply entry_get. rewrite (perform_untouched _ _ _ _ t i Hall); [by apply entry_get|].
  intros x Hx. apply elem_of_app in Hx as [Hx|Hx]; [by apply Hno|]. intros [[w ->]| ->].
  - apply env_items_mem in Hx as (_ & o1 & Ho1' & Hw & [w' Hw']).
    rewrite (entry_fun _ _ _ _ _ Ho1' Ho1), Hpre in Hw. congruence.
  - by apply env_items_no_enter in Hx.
Qed.

Lemma last_wins a argv a' its1 its2 t i v T d f :
  fresh a -> argus_parse a argv = Ok (Returned 0, a') ->
  assigned a argv (its1 ++ Call t i v :: its2) ->
  (forall x, x ∈ its2 -> ~ touches t i x) ->
  decls a !! t = Some T -> T !! i = Some d -> d_handler d = Some f -> scalar f ->
  exists x o', denoted f v x /\ entry a' t i o' /\ value o' = x.
Proof.
  intros Hf E (its & a1 & Hr & Hp & Hi) Hn HT Hd Hh Hs.
  destruct (success_parts _ _ _ _ Hf E Hr) as (a1' & Hp' & Hall & Hrj & _).
  assert (a1' = a1) as -> by congruence. rewrite <- Hi in Hall, Hrj.
  destruct (scalar_last its1 its2 a a' t i v T d f) as (x & o' & ? & ? & ? & _); eauto.
Qed.

Lemma marks a argv a' its t i o o' :
  fresh a -> argus_parse a argv = Ok (Returned 0, a') -> assigned a argv its ->
  entry a t i o -> entry a' t i o' ->
  is_set o' = true <-> is_set o = true \/ exists x, x ∈ its /\ touches t i x.
Proof.
  intros Hf E (its1 & a1 & Hr & Hp & ->) Ho Ho'.
  destruct (success_parts _ _ _ _ Hf E Hr) as (a1' & Hp' & Hall & Hrj & _).
  assert (a1' = a1) as -> by congruence. by eapply perform_marks.
Qed.

Lemma texts_accepted a argv a' its t i v T d e :
  fresh a -> argus_parse a argv = Ok (Returned 0, a') -> assigned a argv its ->
  Call t i v ∈ its -> decls a !! t = Some T -> T !! i = Some d ->
  e ∈ validators d -> v_order e = ORDER_PRE -> accepts_text (v_fun e) v.
Proof.
  intros Hf E (its1 & a1 & Hr & Hp & ->) Hc HT Hd He Ho.
  destruct (success_parts _ _ _ _ Hf E Hr) as (a1' & Hp' & Hall & Hrj & _).
  assert (a1' = a1) as -> by congruence. exact (perform_accepts _ _ _ _ _ _ _ _ _ Hall Hrj Hc HT Hd He Ho).
Qed.

Lemma success_assigned a argv a' : fresh a -> argus_parse a argv = Ok (Returned 0, a') ->
  exists its, assigned a argv its /\ forall its', assigned a argv its' -> its' = its.
Proof.
  intros Hf E. apply parse_success in E as (its & Ha & _); [|done]. exists its. split; [done|].
  intros its' (its1 & a1 & Hr & Hp & ->). destruct Ha as (its2 & a2 & Hr2 & Hp2 & ->).
  assert (its2 = its1) as -> by (by eapply reads_unique). congruence.
Qed.
End libc.
