(** * Releasing all memory: proofs *)
From Coq Require Import Lia.
From stdpp Require Import sets.
From Verif Require Import Api LibProofs FrameProofs SpecGrammar GrammarProofs GrammarLemmas ActiveProofs SpecAfter EnvProofs AfterFacts
  AfterProofs CallProofs WholeProofs MoreFacts SpecStructure StructProofs LookupProofs IsolationProofs SpecMemory SpecContents SpecSafe SpecCollections HeapProofs ListProofs ArrayProofs
  FlagProofs ArrayHandlers MapProofs MapHandlers MapFlags MapWhole FreeProofs SafeProofs SafeContext SafePerform OrderProofs CollProofs CollMaps SafeFacts
  SpecTold SpecMessages SpecRefused RefusedProofs SpecLeak.

Section leak.
Context `{Libc}.

(** Nothing is lost: every block alive belongs to an option that will release it. *)
Definition orderly (a : argus) (F K : nat -> nat -> list nat) : Prop :=
  forall t i o, get_option a t i = Ok o -> K t i = [] /\ (is_allocated o = false -> F t i = []).

Lemma freeable_less a F (L L' : nat -> Prop) : freeable a F L -> (forall l, L l -> L' l) -> freeable a F L'.
Proof.
  intros [I1 I2 I3 I4 I5] HL. split; try done. intros l b Hl. destruct (I5 l b Hl); auto.
Qed.
Lemma orderly_freeable clean a V F K : invar clean a V F K -> orderly a F K ->
  freeable a (fun t i => if allocated_at a t i then F t i else []) (fun _ => False).
Proof.
  intros I HO. eapply freeable_less; [by eapply invar_freeable|]. intros l (t & i & Hl).
  destruct (iv_in _ _ _ _ _ I t i l) as [o Ho]; [tauto|]. destruct (HO t i o Ho) as [HK HF].
  destruct Hl as [Hl|[Hl Ha]]; [rewrite HK in Hl|unfold allocated_at in Ha; rewrite Ho in Ha; rewrite (HF Ha) in Hl]; by apply elem_of_nil in Hl.
Qed.

(** What stays alive after releasing. *)
Lemma free_lost a0 a F L a' : ready a0 -> freeable a F L -> stack_ok a -> is_Some (decls a !! a_root a) ->
  argus_free a = Ok a' -> steps a0 a' -> forall l b, blocks (a_heap a') !! l = Some (Some b) -> L l.
Proof.
  intros HR If Hs Hr E HS l b Hl. destruct (argus_free_ok _ _ _ If Hs Hr) as (a2 & F2 & E2 & I2 & Fr).
  rewrite E in E2. injection E2 as <-. pose proof (freed_released _ _ Fr) as Hrel.
  destruct (fr_live _ _ _ I2 _ _ Hl) as [HL|(t & i & HF)]; [done|exfalso].
  destruct (fr_in _ _ _ I2 _ _ _ HF) as (o2 & Ho2 & Hal).
  assert (Hn : ~ in_play a' t) by (intros Hp; rewrite (Hrel t i o2 Hp Ho2) in Hal; done).
  rewrite (st_other _ _ HS _ _ Hn) in Ho2. apply get_option_Ok in Ho2 as (T & HT & Ho2).
  destruct (rd_pristine _ HR t i o2) as [Hp _]; [by exists T|]. congruence.
Qed.

(** A call that fails without beginning a list. *)
Lemma exec_orderly a V F K t i o v st a' : qsort_sorts -> invar true a V F K -> orderly a F K -> get_option a t i = Ok o ->
  (exists act, get_active_options a = Ok act) -> (v = None -> d_vtype (decl_of o) = VT_FLAG) ->
  (forall s, v = Some s -> harmless_text (decl_of o) s) -> library_entry (decl_of o) ->
  execute_callbacks a t i v = Ok (st, a') -> st <> 0 ->
  shape_of (decl_of o) = Plain \/ ~ passes (decl_of o) v \/ (exists k, shape_of (decl_of o) = Listed k) /\ is_allocated o = true ->
  exists V' F' K', invar false a' V' F' K' /\ orderly a' F' K'.
Proof.
  intros HQ I HO Ho [act Hact] Hnone Hharm [Hl1 Hl2] E Hne Hc. unfold execute_callbacks in E. rewrite Ho in E. cbn [rbind] in E.
  destruct (d_handler (decl_of o)) as [f|] eqn:Hf.
  2:{ injection E as <- <-. exists V, F, K. split; [eapply invar_weaken, invar_same; [..|exact I]; done|].
      intros t' i' o'. apply HO. }
  apply rbind_Ok in E as ([st1 ev] & Hv & E). cbv beta iota zeta in E.
  set (a1 := apply_events a ev) in *.
  assert (I1 : invar true a1 V F K) by (eapply invar_same; [apply apply_events_tabs|apply apply_events_heap|done]).
  assert (Hg1 : forall t' i', get_option a1 t' i' = get_option a t' i') by (intros; apply get_option_tabs, apply_events_tabs).
  change SUCCESS with 0 in E. destruct (Z.eqb_spec st1 0) as [->|Hst1]; cbn [negb] in E.
  2:{ injection E as <- <-. exists V, F, K. split; [by eapply invar_weaken|]. intros t' i' o'. rewrite Hg1. apply HO. }
  assert (Hp : passes (decl_of o) v).
  { unfold passes. unfold validators in *. destruct (d_validators (decl_of o)) as [l|] eqn:El; cbn [default from_option] in *.
    - unfold id in *. apply (refused_texts (fun x => x)) in Hv as [(_ & _ & X)|(N & _)]; [done|done|done].
    - intros e []%elem_of_nil. }
  assert (Hact1 : get_active_options a1 = Ok act).
  { rewrite <- Hact. unfold get_active_options, a1. rewrite apply_events_stack, apply_events_root.
    destruct (last (a_stack a)); [|done]. unfold sub_of. by rewrite (get_option_tabs _ a) by apply apply_events_tabs. }
  rewrite Hact1 in E. cbn [rbind] in E.
  assert (Ho1 : get_option a1 t i = Ok o) by (by rewrite Hg1).
  destruct (handler_inv (default (a_root a1) act) f v true (a_heap a1) o (V t i) (F t i) (K t i) HQ
    (iv_fits _ _ _ _ _ I _ _ _ Ho) Hf (iv_entry _ _ _ _ _ I1 _ _ _ Ho1) (iv_oom _ _ _ _ _ I1) Hnone Hharm)
    as (st2 & s & Er & Hd & Hoom & fp' & lk' & M & Hlk & HE). rewrite Er in E. cbn [rbind] in E.
  set (a2 := apply_events _ (h_log s)) in *.
  assert (Ht2 : a_tabs a2 = a_tabs (put_option a1 t i (h_opt s))) by (unfold a2; by rewrite apply_events_tabs).
  assert (Hh2 : a_heap a2 = h_heap s) by (unfold a2; by rewrite apply_events_heap).
  assert (Ho2 : get_option a2 t i = Ok (h_opt s)).
  { rewrite (get_option_tabs _ _ _ _ Ht2). by eapply get_put_same. }
  assert (Hoth2 : forall t' i', (t', i') <> (t, i) -> get_option a2 t' i' = get_option a1 t' i').
  { intros t' i' Hn. rewrite (get_option_tabs _ _ _ _ Ht2). by apply get_put_other. }
  assert (HVo : forall t' i', (t', i') <> (t, i) -> extend V t i v t' i' = V t' i') by (intros; by apply upd_other).
  (* the option itself *)
  assert (Hown : forall o', is_allocated o' = is_allocated (h_opt s) -> K t i ++ lk' = [] /\ (is_allocated o' = false -> fp' = [])).
  { intros o' Ha'. rewrite Ha'. destruct (HO t i o Ho) as [HK HF].
    assert (Hd' : decl_of (if st2 =? 0 then finished (h_opt s) else h_opt s) = decl_of o).
    { destruct (st2 =? 0); [|done]. rewrite <- Hd. unfold finished. by destruct (value_count _ =? 0)%nat. }
    assert (Hal' : is_allocated (if st2 =? 0 then finished (h_opt s) else h_opt s) = is_allocated (h_opt s)).
    { destruct (st2 =? 0); [|done]. unfold finished. by destruct (value_count _ =? 0)%nat. }
    unfold entry_inv in HE. rewrite Hd' in HE. destruct Hc as [Hc|[Hc|[[k Hc] Hal]]]; [..|by destruct Hc|]; rewrite Hc in HE.
    - destruct HE as (_ & _ & -> & ->). done.
    - destruct HE as (c' & _ & _ & _ & -> & _). split; [done|]. intros Hx. exfalso.
      pose proof (iv_entry _ _ _ _ _ I1 _ _ _ Ho1) as HE1. unfold entry_inv in HE1. rewrite Hc in HE1. destruct HE1 as (c & HC & HG & _).
      pose proof Hc as Hc'. apply shape_listed in Hc as (f' & b & Hf' & Hk). assert (f' = f) as -> by congruence.
      pose proof (ft_shape _ (iv_fits _ _ _ _ _ I _ _ _ Ho)) as FS. rewrite Hc' in FS. destruct FS as (Hkind & _ & _).
      destruct v as [w|]; [|rewrite (Hnone eq_refl) in Hkind; done].
      destruct (Hharm w eq_refl f Hf) as [Hh _]. rewrite Hk in Hh. specialize (Hh ltac:(done)).
      destruct (array_handler_spec (decl_of o) (default (a_root a1) act) f b k w c (F t i) (Hst o (a_heap a1) []) HQ Hk Hkind) as
        (st' & s' & Er' & c1 & fp1 & _ & _ & _ & _ & HR); [split_and!; try done; apply (iv_oom _ _ _ _ _ I1)|done|done|].
      rewrite Er in Er'. injection Er' as <- <-. destruct HR as [(_ & Hal2 & _)|(_ & Hal2 & _)]; [congruence|]. cbn [h_opt] in Hal2. congruence. }
  assert (Hnew : forall o' b, get_option b t i = Ok o' -> is_allocated o' = is_allocated (h_opt s) ->
     (forall t' i', (t', i') <> (t, i) -> get_option b t' i' = get_option a1 t' i') ->
     orderly b (upd F t i fp') (upd K t i (K t i ++ lk'))).
  { intros o' b Hb Ha' Hoth t' i' o1 H1. destruct (pair_dec t i t' i') as [[= -> ->]|Hn].
    - rewrite !upd_same. assert (o1 = o') as -> by congruence. by apply Hown.
    - rewrite !upd_other by done. rewrite Hoth, Hg1 in H1 by done. by apply HO. }
  destruct (Z.eqb_spec st2 0) as [->|Hst2]; cbn [negb] in E.
  - rewrite Ho2 in E. cbn [rbind] in E. cbv zeta in E. fold (finished (h_opt s)) in E.
    set (a3 := put_option a2 t i (finished (h_opt s))) in *.
    assert (Ho3 : get_option a3 t i = Ok (finished (h_opt s))) by (by eapply get_put_same).
    assert (Hoth3 : forall t' i', (t', i') <> (t, i) -> get_option a3 t' i' = get_option a1 t' i').
    { intros t' i' Hn. unfold a3. rewrite get_put_other by done. by apply Hoth2. }
    destruct (has _ FLAG_EXIT); injection E as <- <-; [|done].
    exists (extend V t i v), (upd F t i fp'), (upd K t i (K t i ++ lk')). split.
    + eapply (invar_weaken true). eapply (invar_step true true a1); try done.
      * rewrite <- Hd. unfold finished. by destruct (value_count _ =? 0)%nat.
      * cbn. by rewrite Hh2.
      * cbn. by rewrite Hh2.
      * cbn. by rewrite Hh2.
      * cbn. rewrite Hh2. unfold extend. by rewrite upd_same.
    + apply (Hnew (finished (h_opt s))); [done| |done]. unfold finished. by destruct (value_count _ =? 0)%nat.
  - injection E as <- <-. exists (extend V t i v), (upd F t i fp'), (upd K t i (K t i ++ lk')). split.
    + eapply (invar_step true false a1); try done.
      * by rewrite Hh2.
      * by rewrite Hh2.
      * by rewrite Hh2.
      * rewrite Hh2. unfold extend. by rewrite upd_same.
    + by apply (Hnew (h_opt s)).
Qed.

(** ** Arrays stay allocated *)
Lemma exec_alloc a V F K t i o v a' o' k : qsort_sorts -> invar true a V F K -> get_option a t i = Ok o ->
  (v = None -> d_vtype (decl_of o) = VT_FLAG) -> (forall s, v = Some s -> harmless_text (decl_of o) s) ->
  execute_callbacks a t i v = Ok (0, a') -> shape_of (decl_of o) = Listed k -> get_option a' t i = Ok o' -> is_allocated o' = true.
Proof.
  intros HQ I Ho Hnone Hharm E Hs Ho'. unfold execute_callbacks in E. rewrite Ho in E. cbn [rbind] in E.
  pose proof Hs as Hs'. apply shape_listed in Hs' as (f & b & Hf & Hk). rewrite Hf in E.
  apply rbind_Ok in E as ([st1 ev] & Hv & E). cbv beta iota zeta in E. change SUCCESS with 0 in E.
  destruct (Z.eqb_spec st1 0) as [->|Hst1]; cbn [negb] in E; [|by injection E].
  set (a1 := apply_events a ev) in *.
  assert (I1 : invar true a1 V F K) by (eapply invar_same; [apply apply_events_tabs|apply apply_events_heap|done]).
  assert (Ho1 : get_option a1 t i = Ok o) by (by rewrite (get_option_tabs _ a) by apply apply_events_tabs).
  apply rbind_Ok in E as (act & _ & E). apply rbind_Ok in E as ([st2 s] & Er & E). cbv beta iota in E.
  pose proof (iv_entry _ _ _ _ _ I1 _ _ _ Ho1) as HE1. unfold entry_inv in HE1. rewrite Hs in HE1. destruct HE1 as (c & HC & HG & _).
  pose proof (ft_shape _ (iv_fits _ _ _ _ _ I _ _ _ Ho)) as FS. rewrite Hs in FS. destruct FS as (Hkind & _ & _).
  destruct v as [w|]; [|rewrite (Hnone eq_refl) in Hkind; done].
  destruct (Hharm w eq_refl f Hf) as [Hh _]. rewrite Hk in Hh. specialize (Hh ltac:(done)).
  destruct (array_handler_spec (decl_of o) (default (a_root a1) act) f b k w c (F t i) (Hst o (a_heap a1) []) HQ Hk Hkind) as
    (st' & s' & Er' & c1 & fp1 & _ & _ & _ & _ & HR); [split_and!; try done; apply (iv_oom _ _ _ _ _ I1)|done|done|].
  rewrite Er in Er'. injection Er' as <- <-.
  destruct HR as [(-> & Hal & _)|(N & _)]; [|destruct (Z.eqb_spec st2 0); [done|by injection E]].
  change (negb (0 =? 0)) with false in E. cbv iota in E. apply rbind_Ok in E as (o2 & Ho2 & E). cbv zeta in E. fold (finished o2) in E.
  set (a2 := apply_events _ (h_log s)) in *.
  assert (o2 = h_opt s) as ->.
  { rewrite (get_option_tabs _ (put_option a1 t i (h_opt s))) in Ho2 by (unfold a2; by rewrite apply_events_tabs).
    rewrite (get_put_same a1 t i o) in Ho2 by done. by injection Ho2. }
  destruct (has _ FLAG_EXIT); [by injection E|]. injection E as <-.
  rewrite (get_put_same a2 t i (h_opt s)) in Ho' by done. injection Ho' as <-. unfold finished. by destruct (value_count _ =? 0)%nat.
Qed.
Lemma perform_cons x its a st a' : perform a (x :: its) = Ok (st, a') ->
  (exists a1, perform a [x] = Ok (0, a1) /\ perform a1 its = Ok (st, a')) \/ (perform a [x] = Ok (st, a') /\ (st <> 0 \/ exists c m, x = Reject c m)).
Proof.
  cbn [perform]. destruct x as [t i v|t i|c m].
  - intros E. apply rbind_Ok in E as ([s1 a1] & -> & E). cbn [rbind]. destruct (Z.eqb_spec s1 0) as [->|N].
    + left. by exists a1.
    + injection E as <- <-. right. split; [done|]. by left.
  - intros E. apply rbind_Ok in E as (a1 & -> & E). cbn [rbind]. left. by exists a1.
  - intros E. right. eauto.
Qed.
Lemma perform_head x its a c a' : perform a [x] = Ok (c, a') -> c <> 0 -> perform a (x :: its) = Ok (c, a').
Proof.
  cbn [perform]. destruct x as [t i v|t i|c0 m]; [|..].
  - destruct (execute_callbacks a t i v) as [[s a1]|]; [|done]. cbn [rbind]. destruct (s =? 0); [|done]. by intros [= <- <-].
  - destruct (select a t i); [|done]. cbn [rbind]. by intros [= <- <-].
  - done.
Qed.
Lemma perform_alloc its : qsort_sorts -> forall a V F K, invar true a V F K -> stack_ok a ->
  (forall x, x ∈ its -> item_ok (decls a) x) -> (length (a_stack a) + length (entered its) <= 8)%nat ->
  forall a' t i o o' k, perform a its = Ok (0, a') -> get_option a t i = Ok o -> shape_of (decl_of o) = Listed k ->
  get_option a' t i = Ok o' -> is_allocated o = true \/ (exists w, Call t i w ∈ its) -> is_allocated o' = true.
Proof.
  intros HQ. induction its as [|x its IH]; intros a V F K I Hs Hx Hd a' t i o o' k E Ho Hsh Ho' Hor.
  { injection E as <-. destruct Hor as [?|[w []%elem_of_nil]]. congruence. }
  pose proof (Hx x ltac:(left)) as Hx1. assert (Hx2 : forall y, y ∈ its -> item_ok (decls a) y) by (intros; apply Hx; by right).
  apply perform_cons in E as [(a1 & E1 & E)|[E [N|(c & m & ->)]]]; [|done|].
  2:{ cbn in E. injection E as -> _. done. }
  destruct (perform_inv [x] HQ true a V F K I Hs) as (st & a1' & F1 & K1 & E1' & D1 & R1 & S1 & T1 & I1).
  { intros y Hy. apply elem_of_list_singleton in Hy as ->. done. }
  { change (x :: its) with ([x] ++ its) in Hd. rewrite entered_app, app_length in Hd. lia. }
  rewrite E1 in E1'. injection E1' as <- <-. change (true && (0 =? 0)) with true in I1. rewrite <- D1 in Hx2.
  assert (exists o1, get_option a1 t i = Ok o1 /\ decl_of o1 = decl_of o) as (o1 & Ho1 & Hd1).
  { apply entry_get in Ho. destruct (entry_decls _ _ _ _ Ho) as (T & HT & Hi). rewrite <- D1 in HT.
    destruct (decls_entry _ _ _ _ _ HT Hi) as (o1 & Ho1 & Hd1). exists o1. split; [by apply entry_get|done]. }
  eapply (IH a1 _ F1 K1 I1 S1 Hx2); [|exact E|exact Ho1|by rewrite Hd1|exact Ho'|].
  { change (x :: its) with ([x] ++ its) in Hd. rewrite entered_app, app_length in Hd. rewrite (T1 eq_refl), app_length. lia. }
  destruct x as [t0 i0 v0|t0 i0|c m]; cbn [perform] in E1.
  - apply rbind_Ok in E1 as ([s2 a2] & E2 & E1). cbv beta iota in E1.
    assert (s2 = 0 /\ a2 = a1) as [-> ->] by (destruct (Z.eqb_spec s2 0) as [->|]; injection E1; intros; by subst). clear E1.
    destruct (pair_dec t i t0 i0) as [[= -> ->]|Hn].
    + left. destruct Hx1 as (T & d & HT & Hd' & Hnone & Hharm). destruct (decls_entry _ _ _ _ _ HT Hd') as (o0 & Ho0 & <-). apply entry_get in Ho0.
      assert (o0 = o) as -> by congruence. eapply (exec_alloc a V F K t i o v0 a1 o1 k); eassumption.
    + pose proof (execute_callbacks_frame _ _ _ _ _ _ E2) as [_ _ _ _ Foth]. rewrite Foth in Ho1 by done.
      assert (o1 = o) as -> by congruence. destruct Hor as [Hor|[w Hw]]; [by left|]. right. exists w.
      apply elem_of_cons in Hw as [[= -> -> _]|Hw]; [by destruct Hn|done].
  - apply rbind_Ok in E1 as (a2 & E2 & E1). injection E1 as ->.
    apply select_frame in E2 as (_ & _ & _ & _ & _ & _ & _ & o2 & Ho2 & Ho2' & Foth).
    assert (Hw : (exists w, Call t i w ∈ Enter t0 i0 :: its) -> exists w, Call t i w ∈ its).
    { intros [w Hw]. exists w. by apply elem_of_cons in Hw as [?|?]. }
    destruct (pair_dec t i t0 i0) as [[= -> ->]|Hn].
    + assert (o2 = o) as -> by congruence. rewrite Ho1 in Ho2'. injection Ho2' as ->. destruct Hor as [Hor|Hor]; [by left|right; auto].
    + rewrite Foth in Ho1 by done. assert (o1 = o) as -> by congruence. destruct Hor as [Hor|Hor]; [by left|right; auto].
  - cbn in E1. injection E1 as -> _. done.
Qed.

(** ** The whole parse *)
Lemma orderly_keys a0 a its F K : invar true a (fun t i => texts t i its) F K -> decls a = decls a0 -> keys_once a0 its -> orderly a F K.
Proof.
  intros I D Hkeys t i o Ho. pose proof (iv_entry _ _ _ _ _ I _ _ _ Ho) as HE. unfold entry_inv in HE.
  destruct (shape_of (decl_of o)) as [|k|k] eqn:Es.
  - destruct HE as (_ & _ & -> & ->). done.
  - destruct HE as (c & _ & _ & _ & -> & Hcl). split; [done|]. by apply Hcl.
  - destruct HE as (c & _ & _ & _ & Hcl). destruct (Hcl eq_refl) as [Hfill Hfp]. split; [|done].
    apply shape_mapped in Es as (f & Hf & Hk). apply nil_length_inv.
    eapply (mfilled_once _ f k _ Hf Hk _ _ Hfill). intros pss Hpss.
    apply entry_get in Ho. destruct (entry_decls _ _ _ _ Ho) as (T & HT & Hi). rewrite D in HT. destruct (decls_entry _ _ _ _ _ HT Hi) as (o0 & Ho0 & Hd0).
    eapply (Hkeys t i o0 f k); [done|by rewrite Hd0|done|done].
Qed.
Lemma orderly_same a a' F K : a_tabs a' = a_tabs a -> orderly a F K -> orderly a' F K.
Proof. intros Ht HO t i o. rewrite (get_option_tabs _ _ _ _ Ht). apply HO. Qed.

(** The item at which the parse ends. *)
Lemma item_orderly a0 a its x F K c a' : qsort_sorts -> ready a0 -> library_only (decls a0) ->
  a_stack a0 = [] -> is_Some (decls a0 !! a_root a0) ->
  (forall y, y ∈ its ++ [x] -> item_ok (decls a0) y) -> (length (entered its) <= 8)%nat ->
  perform a0 its = Ok (0, a) -> invar true a (fun t i => texts t i its) F K -> decls a = decls a0 -> stack_ok a -> orderly a F K ->
  not_begun a0 its (Some x) -> perform a [x] = Ok (c, a') -> c <> 0 ->
  exists V' F' K', invar false a' V' F' K' /\ orderly a' F' K'.
Proof.
  intros HQ Hrdy Hlib Hst HR Hit Hlen Hp I D S1 HO Hnb E Hc. destruct x as [t i v|t i|c0 m]; cbn [perform] in E.
  - apply rbind_Ok in E as ([s2 a2] & E2 & E). cbv beta iota in E.
    assert (s2 = c /\ a2 = a') as [-> ->] by (destruct (Z.eqb_spec s2 0) as [->|]; injection E; intros; subst; done). clear E.
    destruct (Hit (Call t i v)) as (T & d & HT & Hd & Hnone & Hharm); [apply elem_of_app; right; left|].
    destruct (decls_entry a t T i d) as (o & Ho & <-); [by rewrite D|done|]. apply entry_get in Ho.
    assert (Hlb : library_entry (decl_of o)) by (eapply Hlib; [exact HT|by eapply elem_of_list_lookup_2]).
    eapply (exec_orderly a _ F K t i o v c a'); try eassumption; [by apply stack_active|].
    destruct (Hnb t i v T (decl_of o) eq_refl HT Hd) as [?|[?|[[k Hk] Hw]]]; [by left|right; by left|right; right].
    split; [eauto|]. destruct (decls_entry a0 t T i (decl_of o) HT Hd) as (o0 & Ho0 & Hd0). apply entry_get in Ho0.
    eapply (perform_alloc its HQ a0 _ _ _ (invar_ready _ Hrdy)) with (o := o0); [| | |exact Hp|exact Ho0|by rewrite Hd0|exact Ho|by right].
    + unfold stack_ok. rewrite Hst. intros r []%elem_of_nil.
    + intros y Hy. apply Hit. apply elem_of_app. by left.
    + rewrite Hst. exact Hlen.
  - apply rbind_Ok in E as (a2 & _ & E). by injection E as <- <-.
  - injection E as <- <-. exists (fun t i => texts t i its), F, K. split; [|by eapply orderly_same].
    eapply invar_weaken, invar_same; [..|exact I]; done.
Qed.

Lemma restored_freeable a a' F L : restored a' a -> a_heap a' = a_heap a -> freeable a F L -> freeable a' F L.
Proof.
  intros E8 E5 If. destruct E8 as [E8|(t & i & o & v & Ho & Hb & E8)]; [by eapply freeable_same|].
  eapply (freeable_same (put_option a t i (with_value (with_set o true) v))); [done|by rewrite E5|].
  assert (Hplain : shape_of (decl_of o) = Plain).
  { pose proof (ft_shape _ (fr_fits _ _ _ If _ _ _ Ho)) as Hsh. destruct (shape_of (decl_of o)) as [|k|k]; [done|..];
      destruct Hsh as (_ & Hb' & _); congruence. }
  assert (Hna : is_allocated o = false).
  { destruct (is_allocated o) eqn:Hal; [|done]. destruct (fr_entry _ _ _ If _ _ _ Ho Hal) as [lk HE]. unfold entry_inv in HE.
    rewrite Hplain in HE. destruct HE as [? _]. congruence. }
  assert (Hs' : get_option (put_option a t i (with_value (with_set o true) v)) t i = Ok (with_value (with_set o true) v)) by (by eapply get_put_same).
  assert (Ho' : forall t' i', (t', i') <> (t, i) -> get_option (put_option a t i (with_value (with_set o true) v)) t' i' = get_option a t' i')
    by (intros; by apply get_put_other).
  split.
  - intros t' i' o' Hg. destruct (pair_dec t i t' i') as [[= -> ->]|Hd]; [|rewrite Ho' in Hg by done; by eapply (fr_fits _ _ _ If)].
    rewrite Hs' in Hg. injection Hg as <-. apply (fr_fits _ _ _ If _ _ _ Ho).
  - intros t' i' o' Hg Hal. destruct (pair_dec t i t' i') as [[= -> ->]|Hd]; [|rewrite Ho' in Hg by done; by apply (fr_entry _ _ _ If)].
    rewrite Hs' in Hg. injection Hg as <-. cbn in Hal. congruence.
  - intros t' i' l Hl. destruct (fr_in _ _ _ If _ _ _ Hl) as (o' & Hg & Hal).
    destruct (pair_dec t i t' i') as [[= -> ->]|Hd]; [congruence|]. rewrite Ho' by done. eauto.
  - apply (fr_disj _ _ _ If).
  - apply (fr_live _ _ _ If).
Qed.

Lemma ended a argv its x : accepted a -> no_strays (decls a) (a_root a) -> ready a -> library_only (decls a) ->
  qsort_sorts -> harmless_input a argv -> ending a argv its x -> keys_once a its -> not_begun a its x ->
  exists o a' a'', argus_parse a argv = Ok (o, a') /\ argus_free a' = Ok a'' /\ no_live_block a'' /\ (o <> Returned 0 -> a'' = a').
Proof.
  intros Ha Hns Hrdy Hlib HQ Hh Hend Hkeys Hnb. pose proof (accepted_ready _ Ha Hns) as [Hst Herr HR HS Hac Hnm].
  destruct (parse_safe a argv Ha Hns Hrdy HQ Hh) as (out & a' & Er & _ & Hor).
  pose proof (parse_steps _ _ _ _ HS HR Er) as Hsteps.
  assert (Hback : out <> Returned 0 -> no_live_block a' ->
    exists o a0 a'', argus_parse a argv = Ok (o, a0) /\ argus_free a0 = Ok a'' /\ no_live_block a'' /\ (o <> Returned 0 -> a'' = a0)).
  { intros Hne Hnl. exists out, a', a'. split; [done|]. destruct Hor as [(? & _)|(_ & A1 & A2 & A3)]; [done|].
    split; [by apply argus_free_none|]. done. }
  assert (Hclose : forall b V F K, invar false b V F K -> orderly b F K -> stack_ok b -> is_Some (decls b !! a_root b) -> argus_free b = Ok a' -> no_live_block a').
  { intros b V F K Ib Ob Sb Rb Eb l blk Hl.
    apply (free_lost a b _ _ a' Hrdy (orderly_freeable _ _ _ _ _ Ib Ob) Sb Rb Eb Hsteps l blk Hl). }
  assert (Hbefore : forall its0 a1, (forall y, y ∈ its0 -> item_ok (decls a) y) -> (length (entered its0) <= 8)%nat -> perform a its0 = Ok (0, a1) ->
    exists F K, invar true a1 (fun t i => texts t i its0) F K /\ decls a1 = decls a /\ a_root a1 = a_root a /\ stack_ok a1).
  { intros its0 a1 Hit Hlen Hp.
    destruct (perform_inv its0 HQ true a _ _ _ (invar_ready _ Hrdy)) as (st & a1' & F1 & K1 & Hp' & D1 & R1 & S1 & T1 & I1).
    { unfold stack_ok. rewrite Hst. intros r []%elem_of_nil. }
    { done. }
    { rewrite Hst. exact Hlen. }
    rewrite Hp in Hp'. injection Hp' as <- <-. by exists F1, K1. }
  destruct Hend as [its x its2 a1 c a2 Hr Hp Hx Hc|its0 a0 its x its2 a1 c a2 Hr Hp0 He Hp Hx Hc|its a1 Has Hp].
  - assert (Hit : forall y, y ∈ its ++ x :: its2 -> item_ok (decls a) y) by (by eapply items_ok).
    assert (Hlen : (length (entered its) <= 8)%nat).
    { pose proof (accepted_entered _ _ _ Ha Hns Hr) as Hle. rewrite entered_app, app_length in Hle. lia. }
    destruct (Hbefore its a1) as (F & K & I & D1 & R1 & S1); [intros; apply Hit, elem_of_app; by left|done|done|].
    pose proof (orderly_keys _ _ _ _ _ I D1 Hkeys) as HO.
    destruct (item_orderly a a1 its x F K c a2 HQ Hrdy Hlib Hst HR) as (V' & F' & K' & I2 & O2); try done.
    { intros y Hy. apply Hit. apply elem_of_app in Hy as [Hy|Hy]; apply elem_of_app; [by left|right].
      apply elem_of_list_singleton in Hy as ->. left. }
    assert (Hn : forall c m, Reject c m ∉ its).
    { eapply perform_no_reject; [|exact Hp]. intros c' m' Hy.
      assert (Hy' : Reject c' m' ∈ its ++ x :: its2) by (apply elem_of_app; by left).
      destruct (reads_codes _ _ _ _ _ _ _ _ Hr Hy') as [->|[->| ->]]; done. }
    assert (Hpp : perform a (its ++ x :: its2) = Ok (c, a2)).
    { rewrite perform_app, Hp by done. cbn [rbind]. change (0 =? 0) with true. cbv iota. by apply perform_head. }
    destruct (perform_inv [x] HQ true a1 _ F K I S1) as (st & a2' & F2 & K2 & Hx' & D2 & R2 & S2 & _ & _).
    { intros y Hy. apply elem_of_list_singleton in Hy as ->. rewrite D1. apply Hit. apply elem_of_app; right; left. }
    { pose proof (accepted_entered _ _ _ Ha Hns Hr) as Hle. change (its ++ x :: its2) with (its ++ [x] ++ its2) in Hle.
      rewrite !entered_app, !app_length in Hle.
      destruct (perform_inv its HQ true a _ _ _ (invar_ready _ Hrdy)) as (st & a1' & F1 & K1 & Hp' & _ & _ & _ & T1 & _).
      { unfold stack_ok. rewrite Hst. intros r []%elem_of_nil. }
      { intros; apply Hit, elem_of_app; by left. }
      { rewrite Hst. exact Hlen. }
      rewrite Hp in Hp'. injection Hp' as <- <-. rewrite (T1 eq_refl), Hst. simpl in *. lia. }
    rewrite Hx in Hx'. injection Hx' as <- <-.
    unfold argus_parse in Er. rewrite (parse_reads _ _ _ _ _ _ HS HR Hr), Hpp in Er. cbn [rbind] in Er.
    change SUCCESS with 0 in Er. change SHOULD_EXIT with 1 in Er.
    assert (HR2 : is_Some (decls a2 !! a_root a2)) by (by rewrite D2, R2, D1, R1).
    destruct (Z.eqb_spec c 1) as [->|H1]; [|destruct (Z.eqb_spec c 0); [done|]; cbn [negb] in Er];
      apply rbind_Ok in Er as (a3 & E3 & Er); injection Er as <- <-.
    + apply Hback; [done|]. eapply (Hclose (set_err a2 1) V' F' K'); [by eapply (invar_same _ a2)|by eapply (orderly_same a2)|done|done|done].
    + apply Hback; [by intros [= ?]|]. eapply (Hclose (add_log (set_err a2 c) [EUsage]) V' F' K'); [by eapply (invar_same _ a2)|by eapply (orderly_same a2)|done|done|done].
  - assert (Hit0 : forall y, y ∈ its0 -> item_ok (decls a) y) by (by eapply items_ok).
    assert (Hite : forall y, y ∈ env_items a0 -> item_ok (decls a) y).
    { rewrite <- (perform_decls _ _ _ _ Hp0). by eapply env_items_ok. }
    assert (Hlen0 : (length (entered its0) <= 8)%nat) by (by eapply accepted_entered).
    assert (Hz : length (entered (env_items a0)) = 0%nat) by (apply accepted_env_none).
    assert (Hn0 : forall c m, Reject c m ∉ its0).
    { eapply perform_no_reject; [|exact Hp0]. intros c' m' Hy. destruct (reads_codes _ _ _ _ _ _ _ _ Hr Hy) as [->|[->| ->]]; done. }
    assert (Hne : forall c m, Reject c m ∉ its).
    { intros c' m' Hy. assert (Hy' : Reject c' m' ∈ env_items a0) by (rewrite He; apply elem_of_app; by left).
      apply env_of_calls in Hy' as (? & ? & ? & [=]). }
    assert (Hpp : perform a (its0 ++ its) = Ok (0, a1)) by (by rewrite perform_app, Hp0).
    rewrite He in Hite, Hz.
    assert (Hit : forall y, y ∈ its0 ++ its -> item_ok (decls a) y).
    { intros y Hy. apply elem_of_app in Hy as [Hy|Hy]; [by apply Hit0|]. apply Hite, elem_of_app. by left. }
    change (its ++ x :: its2) with (its ++ [x] ++ its2) in Hz. rewrite !entered_app, !app_length in Hz.
    assert (Hlen : (length (entered (its0 ++ its)) <= 8)%nat) by (rewrite entered_app, app_length; lia).
    destruct (Hbefore (its0 ++ its) a1 Hit Hlen Hpp) as (F & K & I & D1 & R1 & S1).
    pose proof (orderly_keys _ _ _ _ _ I D1 Hkeys) as HO.
    destruct (item_orderly a a1 (its0 ++ its) x F K c a2 HQ Hrdy Hlib Hst HR) as (V' & F' & K' & I2 & O2); try done.
    { intros y Hy. apply elem_of_app in Hy as [Hy|Hy]; [by apply Hit|]. apply elem_of_list_singleton in Hy as ->.
      apply Hite. apply elem_of_app; right; left. }
    destruct (parsed_stack a argv its0 0 a0 HS HR Hac Hst Hr Hp0) as (Q1 & Q2 & Q3 & Q4 & Q5 & Q6 & Q7).
    assert (Hxc : exists t i v, x = Call t i v).
    { assert (Hy : x ∈ env_items a0) by (rewrite He; apply elem_of_app; right; left). by apply env_of_calls in Hy. }
    destruct Hxc as (t & i & v & ->).
    assert (Fr2 : a_root a2 = a_root a1 /\ a_stack a2 = a_stack a1 /\ decls a2 = decls a1).
    { cbn [perform] in Hx. apply rbind_Ok in Hx as ([s3 a3] & E3 & Hx). cbv beta iota in Hx.
      assert (a3 = a2) as -> by (destruct (s3 =? 0); by injection Hx).
      pose proof (execute_callbacks_frame _ _ _ _ _ _ E3) as []. done. }
    destruct Fr2 as (FR & FS & FD).
    assert (Hp3 : perform a0 (env_items a0) = Ok (c, a2)).
    { rewrite He, perform_app, Hp by done. cbn [rbind]. change (0 =? 0) with true. cbv iota. by apply perform_head. }
    assert (Herr1 : a_err a0 = 0) by (rewrite (perform_err _ _ _ Hp0 Q7); done).
    unfold argus_parse in Er. rewrite (parse_reads _ _ _ _ _ _ HS HR Hr), Hp0 in Er. cbn [rbind] in Er.
    change (0 =? SHOULD_EXIT) with false in Er. change (negb (0 =? SUCCESS)) with false in Er. cbv iota in Er.
    rewrite (set_err_same _ Herr1) in Er.
    assert (HR0 : is_Some (decls a0 !! a_root a0)) by (by rewrite (perform_decls _ _ _ _ Hp0), Q3).
    pose proof (load_env_vars_spec a0 HR0 Q1 Q2) as Henv. rewrite Hp3 in Henv.
    destruct (load_env_vars a0) as [[st' a4]|] eqn:El; [|done]. cbn [rbind] in Er. destruct Henv as [-> Henv].
    change SUCCESS with 0 in Er. destruct (Z.eqb_spec c 0) as [|_]; [done|]. cbn [negb] in Er.
    apply rbind_Ok in Er as (a5 & E5 & Er). injection Er as <- <-.
    destruct Henv as (X1 & X2 & X3 & X4 & X5 & X6 & X7 & X8).
    apply Hback; [by intros [= ?]|]. intros l b Hl.
    eapply (free_lost a a4 _ (fun _ => False) a5 Hrdy); [|unfold stack_ok|..|exact E5|exact Hsteps|exact Hl].
    + eapply restored_freeable; [exact X8|exact X5|]. by eapply orderly_freeable.
    + rewrite X2, X7, FS, FD. exact S1.
    + by rewrite X7, X1, FR, FD, D1, R1.
  - destruct Has as (its0 & a0 & Hr & Hp0 & Hits).
    destruct Hor as [(-> & its' & Has' & _ & _)|[Hne _]].
    + assert (HP : parsed a argv its a').
      { split; try done. by exists its0, a0. }
      destruct (free_complete _ _ _ _ HP) as (a2 & E1 & E2 & E3). exists (Returned 0), a', a2. split; [done|]. split; [done|]. split; [by apply E3|done].
    + assert (Hit0 : forall y, y ∈ its0 -> item_ok (decls a) y) by (by eapply items_ok).
      assert (Hite : forall y, y ∈ env_items a0 -> item_ok (decls a) y).
      { rewrite <- (perform_decls _ _ _ _ Hp0). by eapply env_items_ok. }
      assert (Hlen : (length (entered its) <= 8)%nat).
      { rewrite Hits, entered_app, app_length, accepted_env_none. pose proof (accepted_entered _ _ _ Ha Hns Hr). lia. }
      assert (Hit : forall y, y ∈ its -> item_ok (decls a) y).
      { intros y Hy. rewrite Hits in Hy. apply elem_of_app in Hy as [Hy|Hy]; auto. }
      destruct (Hbefore its a1 Hit Hlen Hp) as (F & K & I & D1 & R1 & S1).
      pose proof (orderly_keys _ _ _ _ _ I D1 Hkeys) as HO.
      assert (Hn0 : forall c m, Reject c m ∉ its0).
      { eapply perform_no_reject; [|exact Hp0]. intros c' m' Hy. destruct (reads_codes _ _ _ _ _ _ _ _ Hr Hy) as [->|[->| ->]]; done. }
      assert (Hp3 : perform a0 (env_items a0) = Ok (0, a1)).
      { rewrite Hits, perform_app, Hp0 in Hp by done. exact Hp. }
      destruct (parsed_stack a argv its0 0 a0 HS HR Hac Hst Hr Hp0) as (Q1 & Q2 & Q3 & Q4 & Q5 & Q6 & Q7).
      assert (Herr1 : a_err a0 = 0) by (rewrite (perform_err _ _ _ Hp0 Q7); done).
      unfold argus_parse in Er. rewrite (parse_reads _ _ _ _ _ _ HS HR Hr), Hp0 in Er. cbn [rbind] in Er.
      change (0 =? SHOULD_EXIT) with false in Er. change (negb (0 =? SUCCESS)) with false in Er. cbv iota in Er.
      rewrite (set_err_same _ Herr1) in Er.
      assert (HR0 : is_Some (decls a0 !! a_root a0)) by (by rewrite (perform_decls _ _ _ _ Hp0), Q3).
      pose proof (load_env_vars_spec a0 HR0 Q1 Q2) as Henv. rewrite Hp3 in Henv.
      destruct (load_env_vars a0) as [[st' a4]|] eqn:El; [|done]. cbn [rbind] in Er. destruct Henv as [-> Henv].
      cbn in Henv. subst a4. change (negb (0 =? SUCCESS)) with false in Er. cbv iota in Er.
      assert (HR1 : is_Some (decls a1 !! a_root a1)) by (by rewrite D1, R1).
      destruct (post_check_ok _ _ _ _ _ I S1 HR1) as (st & ev & Epost). rewrite Epost in Er. cbn [rbind] in Er.
      destruct (negb (st =? SUCCESS)); [|by injection Er as <- <-].
      apply rbind_Ok in Er as (a5 & E5 & Er). injection Er as <- <-.
      apply Hback; [done|]. eapply (Hclose (apply_events a1 ev) (fun t i => texts t i its) F K); [| | | |exact E5].
      * eapply invar_weaken, invar_same; [apply apply_events_tabs|apply apply_events_heap|exact I].
      * eapply orderly_same; [apply apply_events_tabs|done].
      * unfold stack_ok, decls. rewrite apply_events_stack, apply_events_tabs. exact S1.
      * unfold decls. rewrite apply_events_tabs, apply_events_root. exact HR1.
Qed.

(** Every parse ends somewhere. *)
Lemma perform_stops its : qsort_sorts -> forall a V F K, invar true a V F K -> stack_ok a ->
  (forall x, x ∈ its -> item_ok (decls a) x) -> (length (a_stack a) + length (entered its) <= 8)%nat ->
  (exists a', perform a its = Ok (0, a')) \/
  (exists its1 x its2 a1 c a2, its = its1 ++ x :: its2 /\ perform a its1 = Ok (0, a1) /\ perform a1 [x] = Ok (c, a2) /\ c <> 0).
Proof.
  intros HQ. induction its as [|x its IH]; intros a V F K I Hs Hx Hd; [left; by exists a|].
  destruct (perform_inv [x] HQ true a V F K I Hs) as (st & a1 & F1 & K1 & E1 & D1 & R1 & S1 & T1 & I1).
  { intros y Hy. apply elem_of_list_singleton in Hy as ->. apply Hx. left. }
  { change (x :: its) with ([x] ++ its) in Hd. rewrite entered_app, app_length in Hd. lia. }
  destruct (Z.eqb_spec st 0) as [->|N].
  2:{ right. exists [], x, its, a, st, a1. done. }
  destruct x as [t i v|t i|c m].
  3:{ exfalso. pose proof (Hx (Reject c m) ltac:(left)) as Hc. cbn in Hc, E1. injection E1 as -> _. done. }
  1,2: change (true && true) with true in I1.
  - assert (Hcons : forall l, perform a (Call t i v :: l) = perform a1 l).
    { intros l. cbn [perform] in *. destruct (execute_callbacks a t i v) as [[s b]|]; [|done]. cbn [rbind] in *.
      destruct (Z.eqb_spec s 0) as [->|]; [by injection E1 as ->|by injection E1]. }
    destruct (IH a1 _ F1 K1 I1 S1) as [(a' & E)|(its1 & x & its2 & b1 & c & b2 & -> & E & Ex & N)].
    + intros y Hy. rewrite D1. apply Hx. by right.
    + rewrite (T1 eq_refl), app_nil_r. exact Hd.
    + left. exists a'. by rewrite Hcons.
    + right. exists (Call t i v :: its1), x, its2, b1, c, b2. by rewrite Hcons.
  - assert (Hcons : forall l, perform a (Enter t i :: l) = perform a1 l).
    { intros l. cbn [perform] in *. destruct (select a t i) as [b|]; [|done]. cbn [rbind] in *. by injection E1 as ->. }
    destruct (IH a1 _ F1 K1 I1 S1) as [(a' & E)|(its1 & x & its2 & b1 & c & b2 & -> & E & Ex & N)].
    + intros y Hy. rewrite D1. apply Hx. by right.
    + rewrite (T1 eq_refl), app_length. change (Enter t i :: its) with ([Enter t i] ++ its) in Hd. rewrite entered_app, app_length in Hd. lia.
    + left. exists a'. by rewrite Hcons.
    + right. exists (Enter t i :: its1), x, its2, b1, c, b2. by rewrite Hcons.
Qed.
Lemma ending_exists a argv : accepted a -> no_strays (decls a) (a_root a) -> ready a -> qsort_sorts -> harmless_input a argv ->
  exists its x, ending a argv its x.
Proof.
  intros Ha Hns Hrdy HQ Hh. pose proof (accepted_ready _ Ha Hns) as [Hst Herr HR HS Hac Hnm].
  destruct (reads_total _ _ 0%nat false argv HS HR) as [its Hr].
  assert (Hs0 : stack_ok a) by (unfold stack_ok; rewrite Hst; intros r []%elem_of_nil).
  assert (Hit : forall y, y ∈ its -> item_ok (decls a) y) by (by eapply items_ok).
  assert (Hlen : (length (a_stack a) + length (entered its) <= 8)%nat) by (rewrite Hst; by eapply accepted_entered).
  destruct (perform_stops its HQ a _ _ _ (invar_ready _ Hrdy) Hs0 Hit Hlen) as [(a0 & Hp)|(its1 & x & its2 & a1 & c & a2 & -> & E & Ex & N)].
  2:{ exists its1, (Some x). by eapply end_line. }
  destruct (perform_inv its HQ true a _ _ _ (invar_ready _ Hrdy) Hs0 Hit Hlen) as (st & a0' & F & K & Hp' & D & R & S & T & I).
  rewrite Hp in Hp'. injection Hp' as <- <-. change (true && (0 =? 0)) with true in I.
  assert (Hn0 : forall c m, Reject c m ∉ its).
  { eapply perform_no_reject; [|exact Hp]. intros c' m' Hy. destruct (reads_codes _ _ _ _ _ _ _ _ Hr Hy) as [->|[->| ->]]; done. }
  destruct (perform_stops (env_items a0) HQ a0 _ _ _ I S) as [(a1 & E)|(its1 & x & its2 & a1 & c & a2 & He & E & Ex & N)].
  - by eapply env_items_ok.
  - rewrite (T eq_refl), accepted_env_none, app_length. lia.
  - exists (its ++ env_items a0), None. apply (end_all _ _ _ a1); [by exists its, a0|]. by rewrite perform_app, Hp.
  - exists (its ++ its1), (Some x). by eapply end_environment.
Qed.

(** What stays alive when keys are repeated. *)
Lemma lost_blocks a argv its a' : parsed a argv its a' -> exists a'' K, argus_free a' = Ok a'' /\
  (forall l b, blocks (a_heap a'') !! l = Some (Some b) -> exists t i, l ∈ K t i) /\
  forall t i, match entry_shape a t i with
              | Some (d, Mapped _) => exists c, map_filled d (texts t i its) c (length (K t i))
              | _ => K t i = [] end.
Proof.
  intros HP. destruct (parsed_holds _ _ _ _ HP) as (D & He & Hst & HR & F & K & I).
  assert (Hf : SpecAfter.fresh a) by (apply accepted_ready; apply HP). destruct Hf as [_ _ HR0 HS0 _ _].
  pose proof (parse_steps _ _ _ _ HS0 HR0 (ps_parse _ _ _ _ HP)) as Hsteps.
  destruct (argus_free_ok _ _ _ (invar_freeable _ _ _ _ _ I) Hst HR) as (a2 & F2 & E2 & I2 & Fr). exists a2, K. split; [done|].
  assert (Hsteps2 : steps a a2) by (eapply steps_trans; [exact Hsteps|by apply argus_free_steps]).
  assert (Hent : forall t i o, get_option a' t i = Ok o -> is_allocated o = false -> F t i = []).
  { intros t i o Ho. pose proof (iv_entry _ _ _ _ _ I _ _ _ Ho) as HE. unfold entry_inv in HE.
    destruct (shape_of (decl_of o)) as [|k|k] eqn:Es.
    - by destruct HE as (_ & _ & -> & _).
    - destruct HE as (c & _ & _ & _ & _ & Hcl). by apply Hcl.
    - destruct HE as (c & _ & _ & _ & Hcl). by apply Hcl. }
  split.
  - intros l b Hl. destruct (free_lost a a' _ _ a2 (ps_ready _ _ _ _ HP) (invar_freeable _ _ _ _ _ I) Hst HR E2 Hsteps2 l b Hl) as (t & i & [HL|[HL Ha]]); [eauto|].
    exfalso. destruct (iv_in _ _ _ _ _ I t i l) as [o Ho]; [by left|]. unfold allocated_at in Ha. rewrite Ho in Ha.
    rewrite (Hent t i o Ho Ha) in HL. by apply elem_of_nil in HL.
  - intros t i. unfold entry_shape. destruct (a_tabs a !! t ≫= fun T => T !! i) as [o0|] eqn:Eo.
    + cbn. destruct (a_tabs a !! t) as [T0|] eqn:ET; [|done]. cbn in Eo.
      assert (Hi0 : entry a t i o0) by (exists T0; done).
      destruct (entry_decls _ _ _ _ Hi0) as (T & HT & Hi). rewrite <- D in HT. destruct (decls_entry _ _ _ _ _ HT Hi) as (o & Ho & Hd).
      apply entry_get in Ho. pose proof (iv_entry _ _ _ _ _ I _ _ _ Ho) as HE. unfold entry_inv in HE. rewrite Hd in HE.
      destruct (shape_of (decl_of o0)) as [|k|k].
      * by destruct HE as (_ & _ & _ & ->).
      * by destruct HE as (c & _ & _ & _ & -> & _).
      * destruct HE as (c & _ & _ & _ & Hcl). exists c. by apply Hcl.
    + cbn. destruct (K t i) as [|l k] eqn:EK; [done|]. exfalso.
      destruct (iv_in _ _ _ _ _ I t i l) as [o Ho]; [right; rewrite EK; left|].
      apply entry_get, entry_decls in Ho as (T & HT & Hi). rewrite D in HT. destruct (decls_entry _ _ _ _ _ HT Hi) as (o0 & (T0 & HT0 & Hi0) & _).
      rewrite HT0 in Eo. cbn in Eo. congruence.
Qed.
End leak.
