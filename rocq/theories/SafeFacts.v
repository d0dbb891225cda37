(** * Safety of parsing, reading and releasing: proofs *)
From Coq Require Import Lia.
From stdpp Require Import sets.
From Verif Require Import Api LibProofs FrameProofs SpecGrammar GrammarProofs GrammarLemmas ActiveProofs SpecAfter EnvProofs AfterFacts
  AfterProofs CallProofs WholeProofs MoreFacts SpecStructure StructProofs LookupProofs IsolationProofs SpecMemory SpecContents SpecSafe SpecCollections HeapProofs ListProofs ArrayProofs
  FlagProofs ArrayHandlers MapProofs MapHandlers MapFlags MapWhole FreeProofs SafeProofs SafeContext SafePerform OrderProofs CollProofs CollMaps.

Section facts.
Context `{Libc}.

(** ** Reading *)
Lemma dot_split (s : cstr) : "."%char ∈ s -> exists c r, s = c ++ "."%char :: r /\ "."%char ∉ c.
Proof. intros Hs. destruct (first_split "."%char s Hs) as (l1 & l2 & -> & Hn). eauto. Qed.
Lemma any_dotted (s : cstr) : exists cs n, s = dotted cs n /\ "."%char ∉ n /\ forall x, x ∈ cs -> "."%char ∉ x.
Proof.
  remember (length s) as n eqn:En. revert s En. induction (lt_wf n) as [n _ IH]. intros s ->.
  destruct (decide ("."%char ∈ s)) as [Hin|Hni].
  - destruct (dot_split s Hin) as (c & r & -> & Hc). destruct (IH (length r)) with (s := r) as (cs & m & -> & Hm & Hcs); [rewrite app_length; simpl; lia|done|].
    exists (c :: cs), m. split_and!; [|done|].
    + unfold dotted. cbn [map concat]. by rewrite <- !app_assoc.
    + intros x Hx. apply elem_of_cons in Hx as [->|Hx]; auto.
  - exists [], s. split_and!; [done|done|]. intros x []%elem_of_nil.
Qed.
Lemma finds_entry a t n i : finds a t n i -> exists o, get_option a t i = Ok o.
Proof.
  intros (T & HT & Hf). destruct Hf as (o & Ho & _). exists o. apply get_option_Ok. eauto.
Qed.
Lemma lookup_total a p : well_stacked a -> find_option_by_active_path a p = Ok None \/
  exists t i o, find_option_by_active_path a p = Ok (Some (t, i)) /\ get_option a t i = Ok o.
Proof.
  intros Hw. destruct p as [s|]; [|by left].
  assert (exists r, find_option_by_active_path a (Some s) = Ok r /\ forall t i, r = Some (t, i) -> exists n, finds a t n i) as (r & Hr & Hf).
  { destruct (any_dotted s) as (cs & n & -> & Hn & Hcs). destruct cs as [|c cs].
    - destruct (bare_name a n Hw Hn) as (r & Hr & Hiff). exists r. split; [exact Hr|]. intros t i Hti. apply Hiff in Hti as (k & _ & ? & _). eauto.
    - destruct (decide (c = [])) as [->|Hne].
      + destruct (root_path a (dotted cs n) Hw) as (r & Hr & Hiff). exists r. split; [exact Hr|]. intros t i Hti. apply Hiff in Hti as [_ ?]. eauto.
      + destruct (dotted_path a c cs n Hw Hn Hcs Hne) as (r & Hr & Hiff). exists r. split; [exact Hr|]. intros t i Hti. apply Hiff in Hti as (_ & _ & ?). eauto. }
  destruct r as [[t i]|]; [|by left]. right. destruct (Hf t i eq_refl) as [n Hn]. destruct (finds_entry _ _ _ _ Hn) as [o Ho]. eauto 10.
Qed.
Lemma array_kind_no_map vt k : array_kind vt = Some k -> has vt VT_MAP = false.
Proof.
  unfold array_kind. destruct (N.eqb_spec vt VT_ARRAY_INT) as [->|_]; [done|]. destruct (N.eqb_spec vt VT_VARIADIC_INT) as [->|_]; [done|].
  destruct (N.eqb_spec vt VT_ARRAY_STRING) as [->|_]; [done|]. destruct (N.eqb_spec vt VT_VARIADIC_STRING) as [->|_]; [done|]. cbn [orb].
  destruct (N.eqb_spec vt VT_ARRAY_FLOAT) as [->|_]; [done|]. by destruct (N.eqb_spec vt VT_VARIADIC_FLOAT) as [->|_].
Qed.
Lemma map_kind_no_array vt k : map_kind vt = Some k -> has vt (N.lor VT_ARRAY VT_VARIADIC) = false.
Proof.
  unfold map_kind. destruct (N.eqb_spec vt VT_MAP_INT) as [->|_]; [done|]. destruct (N.eqb_spec vt VT_MAP_STRING) as [->|_]; [done|].
  destruct (N.eqb_spec vt VT_MAP_FLOAT) as [->|_]; [done|]. by destruct (N.eqb_spec vt VT_MAP_BOOL) as [->|_].
Qed.

Lemma array_visits_at h n xs : forall b j e it', array_visits h (Some (ArrayIt b n j e)) xs it' ->
  exists e', it' = Some (ArrayIt b n (j + length xs) e').
Proof.
  induction xs as [|x xs IH]; intros b j e it' Hv.
  - inversion Hv; subst. exists e. by rewrite Nat.add_0_r.
  - inversion Hv as [|it it1 xs' it'' Hn Hv']; subst. cbn [argus_array_next it_count it_pos it_base] in Hn.
    destruct (_ <=? _)%nat; [done|]. apply rbind_Ok in Hn as (cs & _ & Hn). apply rbind_Ok in Hn as (y & _ & Hn). injection Hn as <-.
    apply IH in Hv' as [e' ->]. exists e'. cbn [length]. f_equal. f_equal. lia.
Qed.
Lemma map_visits_at h n xs : forall b j e f it', map_visits h (Some (MapIt b n j e f)) xs it' ->
  exists e' f', it' = Some (MapIt b n (j + length xs) e' f').
Proof.
  induction xs as [|x xs IH]; intros b j e f it' Hv.
  - inversion Hv; subst. exists e, f. by rewrite Nat.add_0_r.
  - inversion Hv as [|it it1 xs' it'' Hn Hv']; subst. cbn [argus_map_next mt_count mt_pos mt_base] in Hn.
    destruct (_ <=? _)%nat; [done|]. apply rbind_Ok in Hn as (cs & _ & Hn). apply rbind_Ok in Hn as (y & _ & Hn). injection Hn as <-.
    apply IH in Hv' as (e' & f' & ->). exists e', f'. cbn [length]. f_equal. f_equal. lia.
Qed.

Lemma read_safe a argv its a' p : parsed a argv its a' -> (forall t i o, entry a t i o -> single_typed (decl_of o)) -> readable a' p.
Proof.
  intros HP HS. destruct (parsed_holds _ _ _ _ HP) as (D & He & Hst & HR & F & K & I).
  assert (Hf : fresh a) by (apply accepted_ready; apply HP).
  assert (Hw : well_stacked a') by (eapply success_well_stacked; [exact Hf|apply HP]).
  assert (Ha0 : set_err a' 0 = a') by (by apply set_err_same).
  destruct (lookup_total a' p Hw) as [Hp|(t & i & o & Hp & Ho)].
  - assert (Hl : lookup_option a' p = Ok None) by (unfold lookup_option; by rewrite Hp).
    unfold readable, argus_get, argus_is_set, argus_count, argus_array_get, argus_map_get, argus_array_it, argus_map_it.
    rewrite Ha0, Hl. cbn [rbind]. split_and!; eauto.
    + eexists. split; [done|]. intros xs it' Hv. apply array_visits_at in Hv as [e' ->]. cbn. eauto.
    + eexists. split; [done|]. intros xs it' Hv. apply map_visits_at in Hv as (e' & f' & ->). cbn. eauto.
  - assert (Hl : lookup_option a' p = Ok (Some o)) by (unfold lookup_option; rewrite Hp; cbn [rbind]; by rewrite Ho).
    assert (Hg : (exists r, argus_get a' p = Ok r) /\ (exists r, argus_is_set a' p = Ok r) /\ (exists r, argus_count a' p = Ok r)).
    { unfold argus_get, argus_is_set, argus_count. rewrite Ha0, Hl. cbn [rbind]. split_and!; eauto. }
    destruct Hg as (G1 & G2 & G3). split; [done|]. split; [done|]. split; [done|].
    assert (Hno_arr : has (d_vtype (decl_of o)) (N.lor VT_ARRAY VT_VARIADIC) = false ->
      (forall j, exists r, argus_array_get a' p j = Ok r) /\
      (exists it, argus_array_it a' p = Ok it /\ forall xs it', array_visits (a_heap a') (Some it) xs it' -> exists r, argus_array_next (a_heap a') it' = Ok r)).
    { intros Hv. split; [intros j; unfold argus_array_get; rewrite Ha0, Hl; cbn [rbind]; rewrite Hv; cbn; eauto|].
      unfold argus_array_it. rewrite Hl. cbn [rbind]. rewrite Hv. eexists. split; [done|].
      intros xs it' Hvis. apply array_visits_at in Hvis as [e' ->]. cbn. eauto. }
    assert (Hno_map : has (d_vtype (decl_of o)) VT_MAP = false ->
      (forall k, exists r, argus_map_get a' p k = Ok r) /\
      (exists it, argus_map_it a' p = Ok it /\ forall xs it', map_visits (a_heap a') (Some it) xs it' -> exists r, argus_map_next (a_heap a') it' = Ok r)).
    { intros Hv. split; [intros j; unfold argus_map_get; rewrite Ha0, Hl; cbn [rbind]; rewrite Hv; cbn; eauto|].
      unfold argus_map_it. rewrite Hl. cbn [rbind]. rewrite Hv. eexists. split; [done|].
      intros xs it' Hvis. apply map_visits_at in Hvis as (e' & f' & ->). cbn. eauto. }
    pose proof (iv_entry _ _ _ _ _ I _ _ _ Ho) as HE. pose proof (ft_shape _ (iv_fits _ _ _ _ _ I _ _ _ Ho)) as Hft.
    assert (Hsing : single_typed (decl_of o)).
    { apply entry_get in Ho. destruct (entry_decls _ _ _ _ Ho) as (T & HT & Hi). rewrite D in HT. destruct (decls_entry _ _ _ _ _ HT Hi) as (o0 & Ho0 & <-).
      by eapply HS. }
    unfold entry_inv in HE. destruct (shape_of (decl_of o)) as [|k|k] eqn:Es.
    + destruct (Hsing Es) as [V1 V2]. destruct (Hno_arr V1), (Hno_map V2). done.
    + destruct (Hno_map (array_kind_no_map _ _ (proj1 Hft))) as [M1 M2]. destruct HE as (c & HC & _).
      pose proof (array_kind_has _ _ (proj1 Hft)) as Hv.
      destruct (array_read _ _ _ _ _ _ _ Hp Ho He Hv HC) as (_ & R2 & R3). split_and!; try done.
      * intros j. destruct (c !! j) as [e|] eqn:Ej; [destruct (R2 j e Ej) as (x & -> & _); eauto|]. apply lookup_ge_None in Ej. rewrite (R3 j Ej). eauto.
      * unfold argus_array_it. rewrite Hl. cbn [rbind]. rewrite Hv. eexists. split; [done|]. intros xs it' Hvis.
        apply array_visits_at in Hvis as [e' ->]. cbn [argus_array_next it_count it_pos it_base]. destruct HC as [Hc HC].
        destruct (Nat.leb_spec (value_count o) (0 + length xs)) as [|Hlt]; [eauto|].
        destruct HC as [(_ & -> & _)|(q & cells & Hq & Hb & Hlen & Hpos & Hle & _)]; [simpl in *; lia|].
        rewrite Hq. unfold deref_arr, deref. rewrite Hb. cbn [rbind]. unfold cell.
        destruct (lookup_lt_is_Some_2 cells (0 + length xs)) as [x ->]; [lia|]. cbn. eauto.
    + destruct (Hno_arr (map_kind_no_array _ _ (proj1 Hft))) as [M1 M2]. destruct HE as (c & HC & _ & _ & Hcl).
      pose proof (map_kind_has _ _ (proj1 Hft)) as Hv. apply shape_mapped in Es as (f & Hf' & Hk).
      destruct (mfilled_spec _ f k _ Hf' Hk _ _ (proj1 (Hcl eq_refl))) as (pss & _ & [Hnd _] & _).
      destruct (map_read _ _ _ _ _ _ _ Hp Ho He Hv HC Hnd) as (_ & R2 & R3). split_and!; try done.
      * intros key. destruct (decide (key ∈ map fst c)) as [Hin|Hni]; [|rewrite (R3 key Hni); eauto].
        apply elem_of_list_fmap in Hin as ([key' e] & -> & Hin). destruct (R2 _ _ Hin) as (x & Hx & _). cbn [fst]. rewrite Hx. eauto.
      * unfold argus_map_it. rewrite Hl. cbn [rbind]. rewrite Hv. eexists. split; [done|]. intros xs it' Hvis.
        apply map_visits_at in Hvis as (e' & f' & ->). cbn [argus_map_next mt_count mt_pos mt_base]. destruct HC as [Hc HC].
        destruct (Nat.leb_spec (value_count o) (0 + length xs)) as [|Hlt]; [eauto|].
        destruct HC as [(_ & -> & _)|(q & cells & Hq & Hb & Hlen & Hpos & Hle & _)]; [simpl in *; lia|].
        rewrite Hq. unfold deref_map, deref. rewrite Hb. cbn [rbind]. unfold cell.
        destruct (lookup_lt_is_Some_2 cells (0 + length xs)) as [x ->]; [lia|]. cbn. eauto.
Qed.

(** ** Releasing *)
Lemma adds_distinct f ws c c' n : adds f ws c c' n -> forall qs, Forall2 (pair_text f) ws qs ->
  NoDup (map fst qs) -> (forall k, k ∈ map fst qs -> k ∉ map fst c) -> n = 0%nat.
Proof.
  induction 1 as [c|w ws k v e c c' n Hw He _ IH]; intros qs HF Hnd Hdis; [done|].
  apply Forall2_cons_inv_l in HF as ([k' e'] & qs' & (v' & Hw' & He') & HF & ->). cbn [fst snd] in *.
  destruct (kv_fun _ _ _ _ _ Hw Hw') as [<- <-]. assert (e' = e) as -> by congruence. cbn [map fst] in *. apply NoDup_cons in Hnd as [Hni Hnd].
  rewrite bool_decide_eq_false_2 by (apply Hdis; left). apply (IH qs' HF Hnd).
  intros x Hx. rewrite assign_keys. rewrite bool_decide_eq_false_2 by (apply Hdis; left).
  intros Hx'. apply elem_of_app in Hx' as [Hx'|Hx']; [by apply (Hdis x); [right|]|]. apply elem_of_list_singleton in Hx' as ->. done.
Qed.
Lemma pair_text_fun f w p q : pair_text f w p -> pair_text f w q -> p = q.
Proof.
  intros (v & H1 & E1) (v' & H2 & E2). destruct (kv_fun _ _ _ _ _ H1 H2) as [E <-]. destruct p, q. cbn in *. congruence.
Qed.
Lemma mfilled_once d f k vs : d_handler d = Some f -> map_handler f = Some k -> forall c n, map_filled d vs c n ->
  (forall pss, Forall2 (pairs_text f) vs pss -> NoDup (map fst (concat pss))) -> n = 0%nat.
Proof.
  intros Hf Hk. induction vs as [|v vs IH] using rev_ind; intros c n HF Hkeys; [by apply mfilled_none in HF as [_ ->]|].
  destruct (mfilled_last _ _ _ _ _ _ _ Hf Hk HF) as (c0 & m & c1 & n1 & HF0 & (ws & Hel & Had) & Hfl & ->).
  destruct (adds_pairs _ _ _ _ _ Had) as (qs & HQ & ->).
  destruct (mfilled_spec d f k vs Hf Hk c0 m HF0) as (pss & HP & [_ Hin] & _).
  assert (Hnd : NoDup (map fst (concat (pss ++ [qs])))).
  { apply Hkeys. apply Forall2_app; [done|]. repeat constructor. exists ws. done. }
  rewrite concat_app in Hnd. cbn [concat] in Hnd. rewrite app_nil_r, map_app in Hnd. apply NoDup_app in Hnd as (N1 & N2 & N3).
  assert (n1 = 0%nat) as ->.
  { eapply (adds_distinct _ _ _ _ _ Had qs HQ N3). intros x Hx Hx'. apply (N2 x); [|done].
    apply elem_of_list_fmap in Hx' as (p & -> & Hp). apply elem_of_list_fmap. exists p. split; [done|]. by apply Hin. }
  rewrite Nat.add_0_r. eapply IH; [exact HF0|]. intros pss' HP'.
  pose proof (Hkeys (pss' ++ [qs])) as Hk'. rewrite concat_app, map_app in Hk'. apply NoDup_app in Hk' as [? _]; [done|].
  apply Forall2_app; [done|]. repeat constructor. exists ws. done.
Qed.

Lemma pristine_outside a argv its a' t i o : parsed a argv its a' -> ~ in_play a' t -> get_option a' t i = Ok o -> is_allocated o = false.
Proof.
  intros HP Hn Ho. assert (Hf : fresh a) by (apply accepted_ready; apply HP). destruct Hf as [_ _ HR HS _ _].
  destruct (isolation a argv _ a' HS HR (ps_parse _ _ _ _ HP)) as (_ & _ & _ & Ht). specialize (Ht t Hn).
  apply get_option_Ok in Ho as (T & HT & Ho). rewrite Ht in HT.
  apply (rd_pristine _ (ps_ready _ _ _ _ HP) t i o). exists T. done.
Qed.

Lemma free_complete a argv its a' : parsed a argv its a' ->
  exists a'', argus_free a' = Ok a'' /\ argus_free a'' = Ok a'' /\ (keys_once a its -> no_live_block a'').
Proof.
  intros HP. destruct (parsed_holds _ _ _ _ HP) as (D & He & Hst & HR & F & K & I).
  destruct (argus_free_ok _ _ _ (invar_freeable _ _ _ _ _ I) Hst HR) as (a2 & F2 & E2 & I2 & Fr). exists a2. split; [done|].
  pose proof (freed_released _ _ Fr) as Hrel. pose proof Fr as (D2 & S2 & R2 & G2).
  split.
  { apply argus_free_none; [unfold stack_ok; by rewrite S2, D2|by rewrite D2, R2|done]. }
  intros Hkeys l b Hl. destruct (fr_live _ _ _ I2 _ _ Hl) as [(t & i & HL)|(t & i & HF)].
  - assert (Hent : forall o, get_option a' t i = Ok o -> K t i = [] /\ (is_allocated o = false -> F t i = [])).
    { intros o Ho. pose proof (iv_entry _ _ _ _ _ I _ _ _ Ho) as HE. unfold entry_inv in HE.
      destruct (shape_of (decl_of o)) as [|k|k] eqn:Es.
      - destruct HE as (_ & _ & -> & ->). done.
      - destruct HE as (c & _ & _ & _ & -> & Hcl). split; [done|]. by apply Hcl.
      - destruct HE as (c & _ & _ & _ & Hcl). destruct (Hcl eq_refl) as [Hfill Hfp]. split; [|done].
        apply shape_mapped in Es as (f & Hf & Hk). apply nil_length_inv.
        eapply (mfilled_once _ f k _ Hf Hk _ _ Hfill). intros pss Hpss.
        apply entry_get in Ho. destruct (entry_decls _ _ _ _ Ho) as (T & HT & Hi). rewrite D in HT. destruct (decls_entry _ _ _ _ _ HT Hi) as (o0 & Ho0 & Hd0).
        eapply (Hkeys t i o0 f k); [done|by rewrite Hd0|done|done]. }
    destruct (get_option a' t i) as [o|u] eqn:Ho.
    + destruct (Hent o eq_refl) as [HK HF']. destruct HL as [HL|[HL Hal]]; [rewrite HK in HL; by apply elem_of_nil in HL|].
      unfold allocated_at in Hal. rewrite Ho in Hal. rewrite (HF' Hal) in HL. by apply elem_of_nil in HL.
    + assert (l ∈ F t i \/ l ∈ K t i) as Hin by tauto. destruct (iv_in _ _ _ _ _ I _ _ _ Hin) as [o' Ho']. congruence.
  - destruct (fr_in _ _ _ I2 _ _ _ HF) as (o2 & Ho2 & Hal).
    assert (Hn : ~ in_play a2 t) by (intros Hp; rewrite (Hrel t i o2 Hp Ho2) in Hal; done).
    assert (exists o, get_option a' t i = Ok o) as [o Ho].
    { apply entry_get, entry_decls in Ho2 as (T & HT & Hd). rewrite D2 in HT. destruct (decls_entry _ _ _ _ _ HT Hd) as (o0 & Ho0 & _).
      exists o0. by apply entry_get. }
    assert (Ha : is_allocated o = false).
    { eapply (pristine_outside a argv its a'); [done| |exact Ho]. intros Hp. apply Hn. unfold in_play in *. by rewrite R2, S2, D2. }
    destruct (G2 t i o Ho) as [[E _]|[_ E]]; congruence.
Qed.
End facts.
