(** * The first list of an option, refused midway: proofs *)
From Coq Require Import Lia.
From stdpp Require Import sets.
From Verif Require Import Api LibProofs FrameProofs SpecGrammar GrammarProofs GrammarLemmas ActiveProofs SpecAfter EnvProofs AfterFacts
  AfterProofs CallProofs WholeProofs MoreFacts SpecStructure StructProofs LookupProofs IsolationProofs SpecMemory SpecContents SpecSafe SpecCollections HeapProofs ListProofs ArrayProofs
  FlagProofs ArrayHandlers MapProofs MapHandlers MapFlags MapWhole FreeProofs SafeProofs SafeContext SafePerform OrderProofs CollProofs CollMaps SafeFacts
  SpecTold SpecMessages SpecRefused RefusedProofs SpecLeak LeakProofs.

Section midway.
Context `{Libc}.

(** Only blocks from [n] on are lost. *)
Definition tidy (n : nat) (a : argus) (F K : nat -> nat -> list nat) : Prop :=
  forall t i o l, get_option a t i = Ok o -> (l ∈ K t i -> (n <= l)%nat) /\ (is_allocated o = false -> l ∈ F t i -> (n <= l)%nat).

Lemma tidy_freeable n clean a V F K : invar clean a V F K -> tidy n a F K ->
  freeable a (fun t i => if allocated_at a t i then F t i else []) (fun l => (n <= l)%nat).
Proof.
  intros I HO. eapply freeable_less; [by eapply invar_freeable|]. intros l (t & i & Hl).
  destruct (iv_in _ _ _ _ _ I t i l) as [o Ho]; [tauto|]. destruct (HO t i o l Ho) as [HK HF].
  destruct Hl as [Hl|[Hl Ha]]; [auto|]. unfold allocated_at in Ha. rewrite Ho in Ha. auto.
Qed.
Lemma tidy_same n a a' F K : a_tabs a' = a_tabs a -> tidy n a F K -> tidy n a' F K.
Proof. intros Ht HO t i o l. rewrite (get_option_tabs _ _ _ _ Ht). apply HO. Qed.
Lemma orderly_tidy n a F K : orderly a F K -> tidy n a F K.
Proof.
  intros HO t i o l Ho. destruct (HO t i o Ho) as [HK HF]. split.
  - rewrite HK. by intros []%elem_of_nil.
  - intros Ha. rewrite (HF Ha). by intros []%elem_of_nil.
Qed.

(** An option that has got no text owns no block. *)
Lemma untouched a its F K t i o : invar true a (fun t i => texts t i its) F K -> orderly a F K -> get_option a t i = Ok o ->
  texts t i its = [] -> F t i = [] /\ K t i = [].
Proof.
  intros I HO Ho Hn. destruct (HO t i o Ho) as [HK HF]. split; [|done]. apply HF.
  destruct (is_allocated o) eqn:Ha; [exfalso|done].
  pose proof (iv_entry _ _ _ _ _ I _ _ _ Ho) as HE. unfold entry_inv in HE. rewrite Hn in HE.
  destruct (shape_of (decl_of o)) as [|k|k] eqn:Es.
  - destruct HE as (HE & _). congruence.
  - destruct HE as (c & _ & _ & Hc & _ & Hcl). destruct (Hcl eq_refl) as [Hf _]. apply (Hc Ha). inversion Hf; subst; [done|]. by destruct vs.
  - destruct HE as (c & _ & _ & Hc & Hcl). destruct (Hcl eq_refl) as [Hf _]. apply (Hc Ha). inversion Hf; subst; [done|]. by destruct vs.
Qed.

(** A call that fails, for an option that owns nothing. *)
Lemma exec_tidy a V F K t i o v st a' : qsort_sorts -> invar true a V F K -> orderly a F K -> get_option a t i = Ok o ->
  (exists act, get_active_options a = Ok act) -> (v = None -> d_vtype (decl_of o) = VT_FLAG) ->
  (forall s, v = Some s -> harmless_text (decl_of o) s) ->
  execute_callbacks a t i v = Ok (st, a') -> st <> 0 -> F t i = [] ->
  exists V' F' K', invar false a' V' F' K' /\ tidy (length (blocks (a_heap a))) a' F' K'.
Proof.
  intros HQ I HO Ho [act Hact] Hnone Hharm E Hne HF0. pose proof (HO t i o Ho) as [HK0 _]. apply (orderly_tidy (length (blocks (a_heap a)))) in HO.
  unfold execute_callbacks in E. rewrite Ho in E. cbn [rbind] in E.
  destruct (d_handler (decl_of o)) as [f|] eqn:Hf.
  2:{ injection E as <- <-. exists V, F, K. split; [eapply invar_weaken, invar_same; [..|exact I]; done|].
      intros t' i' o' l'. apply HO. }
  apply rbind_Ok in E as ([st1 ev] & Hv & E). cbv beta iota zeta in E.
  set (a1 := apply_events a ev) in *.
  assert (I1 : invar true a1 V F K) by (eapply invar_same; [apply apply_events_tabs|apply apply_events_heap|done]).
  assert (Hg1 : forall t' i', get_option a1 t' i' = get_option a t' i') by (intros; apply get_option_tabs, apply_events_tabs).
  change SUCCESS with 0 in E. destruct (Z.eqb_spec st1 0) as [->|Hst1]; cbn [negb] in E.
  2:{ injection E as <- <-. exists V, F, K. split; [by eapply invar_weaken|]. intros t' i' o' l'. rewrite Hg1. apply HO. }
  assert (Hact1 : get_active_options a1 = Ok act).
  { rewrite <- Hact. unfold get_active_options, a1. rewrite apply_events_stack, apply_events_root.
    destruct (last (a_stack a)); [|done]. unfold sub_of. by rewrite (get_option_tabs _ a) by apply apply_events_tabs. }
  rewrite Hact1 in E. cbn [rbind] in E.
  assert (Ho1 : get_option a1 t i = Ok o) by (by rewrite Hg1).
  destruct (handler_inv (default (a_root a1) act) f v true (a_heap a1) o (V t i) (F t i) (K t i) HQ
    (iv_fits _ _ _ _ _ I _ _ _ Ho) Hf (iv_entry _ _ _ _ _ I1 _ _ _ Ho1) (iv_oom _ _ _ _ _ I1) Hnone Hharm)
    as (st2 & s & Er & Hd & Hoom & fp' & lk' & M & Hlk & HE). rewrite Er in E. cbn [rbind] in E.
  set (a2 := apply_events _ (h_log s)) in *.
  assert (Ht2 : a_tabs a2 = a_tabs (put_option a1 t i (h_opt s))) by (unfold a2; by rewrite apply_events_tabs).
  assert (Hh2 : a_heap a2 = h_heap s) by (unfold a2; by rewrite apply_events_heap).
  assert (Ho2 : get_option a2 t i = Ok (h_opt s)).
  { rewrite (get_option_tabs _ _ _ _ Ht2). by eapply get_put_same. }
  assert (Hoth2 : forall t' i', (t', i') <> (t, i) -> get_option a2 t' i' = get_option a1 t' i').
  { intros t' i' Hn. rewrite (get_option_tabs _ _ _ _ Ht2). by apply get_put_other. }
  assert (HVo : forall t' i', (t', i') <> (t, i) -> extend V t i v t' i' = V t' i') by (intros; by apply upd_other).
  assert (Hown : forall l, l ∈ K t i ++ lk' \/ l ∈ fp' -> (length (blocks (a_heap a)) <= l)%nat).
  { intros l Hl. rewrite HK0 in Hl. rewrite HF0 in M. assert (Hh1 : a_heap a1 = a_heap a) by apply apply_events_heap. rewrite <- Hh1.
    destruct (mv_own _ _ _ _ M l) as [[]%elem_of_nil|Hle]; [|done]. apply elem_of_app. destruct Hl; [by right|by left]. }
  assert (Hnew : forall o' b, get_option b t i = Ok o' -> is_allocated o' = is_allocated (h_opt s) ->
     (forall t' i', (t', i') <> (t, i) -> get_option b t' i' = get_option a1 t' i') ->
     tidy (length (blocks (a_heap a))) b (upd F t i fp') (upd K t i (K t i ++ lk'))).
  { intros o' b Hb Ha' Hoth t' i' o1 l H1. destruct (pair_dec t i t' i') as [[= -> ->]|Hn].
    - rewrite !upd_same. split; intros; apply Hown; tauto.
    - rewrite !upd_other by done. rewrite Hoth, Hg1 in H1 by done. by apply HO. }
  destruct (Z.eqb_spec st2 0) as [->|Hst2]; cbn [negb] in E.
  - rewrite Ho2 in E. cbn [rbind] in E. cbv zeta in E. fold (finished (h_opt s)) in E.
    set (a3 := put_option a2 t i (finished (h_opt s))) in *.
    assert (Ho3 : get_option a3 t i = Ok (finished (h_opt s))) by (by eapply get_put_same).
    assert (Hoth3 : forall t' i', (t', i') <> (t, i) -> get_option a3 t' i' = get_option a1 t' i').
    { intros t' i' Hn. unfold a3. rewrite get_put_other by done. by apply Hoth2. }
    destruct (has _ FLAG_EXIT); injection E as <- <-; [|done].
    exists (extend V t i v), (upd F t i fp'), (upd K t i (K t i ++ lk')). split.
    + eapply (invar_weaken true). eapply (invar_step true true a1); try done.
      * rewrite <- Hd. unfold finished. by destruct (value_count _ =? 0)%nat.
      * cbn. by rewrite Hh2.
      * cbn. by rewrite Hh2.
      * cbn. by rewrite Hh2.
      * cbn. rewrite Hh2. unfold extend. by rewrite upd_same.
    + apply (Hnew (finished (h_opt s))); [done| |done]. unfold finished. by destruct (value_count _ =? 0)%nat.
  - injection E as <- <-. exists (extend V t i v), (upd F t i fp'), (upd K t i (K t i ++ lk')). split.
    + eapply (invar_step true false a1); try done.
      * by rewrite Hh2.
      * by rewrite Hh2.
      * by rewrite Hh2.
      * rewrite Hh2. unfold extend. by rewrite upd_same.
    + by apply (Hnew (h_opt s)).
Qed.


(** The item at which the parse ends, of an option without values. *)
Lemma item_tidy a0 a its t i v F K c a' : qsort_sorts -> item_ok (decls a0) (Call t i v) ->
  invar true a (fun t i => texts t i its) F K -> decls a = decls a0 -> stack_ok a -> orderly a F K ->
  texts t i its = [] -> perform a [Call t i v] = Ok (c, a') -> c <> 0 ->
  exists V' F' K', invar false a' V' F' K' /\ tidy (length (blocks (a_heap a))) a' F' K'.
Proof.
  intros HQ Hit I D S1 HO Hn E Hc. cbn [perform] in E.
  apply rbind_Ok in E as ([s2 a2] & E2 & E). cbv beta iota in E.
  assert (s2 = c /\ a2 = a') as [-> ->] by (destruct (Z.eqb_spec s2 0) as [->|]; injection E; intros; subst; done). clear E.
  destruct Hit as (T & d & HT & Hd & Hnone & Hharm).
  destruct (decls_entry a t T i d) as (o & Ho & <-); [by rewrite D|done|]. apply entry_get in Ho.
  destruct (untouched _ _ _ _ _ _ _ I HO Ho Hn) as [HF _].
  eapply (exec_tidy a _ F K t i o v c a'); try eassumption. by apply stack_active.
Qed.

Lemma untold t i its : (forall w, Call t i w ∉ its) -> texts t i its = [].
Proof.
  induction its as [|x its IH]; intros Hn; [done|]. specialize (IH (fun w Hw => Hn w (elem_of_list_further _ _ _ Hw))).
  destruct x as [t' i' v|t' i'|c m]; [|done..]. rewrite texts_call. destruct (bool_decide _) eqn:Eb; [|done].
  apply bool_decide_eq_true_1 in Eb as [= -> ->]. destruct (Hn v). left.
Qed.

Lemma midway a argv its t i v b : accepted a -> no_strays (decls a) (a_root a) -> ready a ->
  qsort_sorts -> harmless_input a argv -> ending a argv its (Some (Call t i v)) -> keys_once a its -> (forall w, Call t i w ∉ its) ->
  perform a its = Ok (0, b) ->
  exists o a', argus_parse a argv = Ok (o, a') /\ o <> Returned 0 /\ argus_free a' = Ok a' /\
    forall l x, blocks (a_heap a') !! l = Some (Some x) -> (length (blocks (a_heap b)) <= l)%nat.
Proof.
  intros Ha Hns Hrdy HQ Hh Hend Hkeys Hnone Hb. apply untold in Hnone. remember (Some (Call t i v)) as xo eqn:Hxo.
  pose proof (accepted_ready _ Ha Hns) as [Hst Herr HR HS Hac Hnm].
  destruct (parse_safe a argv Ha Hns Hrdy HQ Hh) as (out & a' & Er & _ & Hor).
  pose proof (parse_steps _ _ _ _ HS HR Er) as Hsteps.
  assert (Hback : out <> Returned 0 -> (forall l x, blocks (a_heap a') !! l = Some (Some x) -> (length (blocks (a_heap b)) <= l)%nat) ->
    exists o a', argus_parse a argv = Ok (o, a') /\ o <> Returned 0 /\ argus_free a' = Ok a' /\
      forall l x, blocks (a_heap a') !! l = Some (Some x) -> (length (blocks (a_heap b)) <= l)%nat).
  { intros Hne Hnl. exists out, a'. split; [done|]. destruct Hor as [(? & _)|(_ & A1 & A2 & A3)]; [done|].
    split; [done|]. split; [by apply argus_free_none|]. done. }
  assert (Hclose : forall b' V F K, invar false b' V F K -> tidy (length (blocks (a_heap b))) b' F K -> stack_ok b' -> is_Some (decls b' !! a_root b') ->
    argus_free b' = Ok a' -> forall l x, blocks (a_heap a') !! l = Some (Some x) -> (length (blocks (a_heap b)) <= l)%nat).
  { intros b' V F K Ib Ob Sb Rb Eb l blk Hl.
    apply (free_lost a b' _ _ a' Hrdy (tidy_freeable _ _ _ _ _ _ Ib Ob) Sb Rb Eb Hsteps l blk Hl). }
  assert (Hbefore : forall its0 a1, (forall y, y ∈ its0 -> item_ok (decls a) y) -> (length (entered its0) <= 8)%nat -> perform a its0 = Ok (0, a1) ->
    exists F K, invar true a1 (fun t i => texts t i its0) F K /\ decls a1 = decls a /\ a_root a1 = a_root a /\ stack_ok a1).
  { intros its0 a1 Hit Hlen Hp.
    destruct (perform_inv its0 HQ true a _ _ _ (invar_ready _ Hrdy)) as (st & a1' & F1 & K1 & Hp' & D1 & R1 & S1 & T1 & I1).
    { unfold stack_ok. rewrite Hst. intros r []%elem_of_nil. }
    { done. }
    { rewrite Hst. exact Hlen. }
    rewrite Hp in Hp'. injection Hp' as <- <-. by exists F1, K1. }
  destruct Hend as [its x its2 a1 c a2 Hr Hp Hx Hc|its0 a0 its x its2 a1 c a2 Hr Hp0 He Hp Hx Hc|its a1 Has Hp]; [..|done].
  - injection Hxo as ->. rewrite Hp in Hb. injection Hb as <-. assert (Hit : forall y, y ∈ its ++ Call t i v :: its2 -> item_ok (decls a) y) by (by eapply items_ok).
    assert (Hlen : (length (entered its) <= 8)%nat).
    { pose proof (accepted_entered _ _ _ Ha Hns Hr) as Hle. rewrite entered_app, app_length in Hle. lia. }
    destruct (Hbefore its a1) as (F & K & I & D1 & R1 & S1); [intros; apply Hit, elem_of_app; by left|done|done|].
    pose proof (orderly_keys _ _ _ _ _ I D1 Hkeys) as HO.
    destruct (item_tidy a a1 its t i v F K c a2) as (V' & F' & K' & I2 & O2); try done.
    { apply Hit, elem_of_app. right. left. }
    assert (Hn : forall c m, Reject c m ∉ its).
    { eapply perform_no_reject; [|exact Hp]. intros c' m' Hy.
      assert (Hy' : Reject c' m' ∈ its ++ Call t i v :: its2) by (apply elem_of_app; by left).
      destruct (reads_codes _ _ _ _ _ _ _ _ Hr Hy') as [->|[->| ->]]; done. }
    assert (Hpp : perform a (its ++ Call t i v :: its2) = Ok (c, a2)).
    { rewrite perform_app, Hp by done. cbn [rbind]. change (0 =? 0) with true. cbv iota. by apply perform_head. }
    destruct (perform_inv [Call t i v] HQ true a1 _ F K I S1) as (st & a2' & F2 & K2 & Hx' & D2 & R2 & S2 & _ & _).
    { intros y Hy. apply elem_of_list_singleton in Hy as ->. rewrite D1. apply Hit. apply elem_of_app; right; left. }
    { pose proof (accepted_entered _ _ _ Ha Hns Hr) as Hle. change (its ++ Call t i v :: its2) with (its ++ [Call t i v] ++ its2) in Hle.
      rewrite !entered_app, !app_length in Hle.
      destruct (perform_inv its HQ true a _ _ _ (invar_ready _ Hrdy)) as (st & a1' & F1 & K1 & Hp' & _ & _ & _ & T1 & _).
      { unfold stack_ok. rewrite Hst. intros r []%elem_of_nil. }
      { intros; apply Hit, elem_of_app; by left. }
      { rewrite Hst. exact Hlen. }
      rewrite Hp in Hp'. injection Hp' as <- <-. rewrite (T1 eq_refl), Hst. simpl in *. lia. }
    rewrite Hx in Hx'. injection Hx' as <- <-.
    unfold argus_parse in Er. rewrite (parse_reads _ _ _ _ _ _ HS HR Hr), Hpp in Er. cbn [rbind] in Er.
    change SUCCESS with 0 in Er. change SHOULD_EXIT with 1 in Er.
    assert (HR2 : is_Some (decls a2 !! a_root a2)) by (by rewrite D2, R2, D1, R1).
    destruct (Z.eqb_spec c 1) as [->|H1]; [|destruct (Z.eqb_spec c 0); [done|]; cbn [negb] in Er];
      apply rbind_Ok in Er as (a3 & E3 & Er); injection Er as <- <-.
    + apply Hback; [done|]. eapply (Hclose (set_err a2 1) V' F' K'); [by eapply (invar_same _ a2)|by eapply (tidy_same _ a2)|done|done|done].
    + apply Hback; [by intros [= ?]|]. eapply (Hclose (add_log (set_err a2 c) [EUsage]) V' F' K'); [by eapply (invar_same _ a2)|by eapply (tidy_same _ a2)|done|done|done].
  - injection Hxo as ->. assert (Hit0 : forall y, y ∈ its0 -> item_ok (decls a) y) by (by eapply items_ok).
    assert (Hite : forall y, y ∈ env_items a0 -> item_ok (decls a) y).
    { rewrite <- (perform_decls _ _ _ _ Hp0). by eapply env_items_ok. }
    assert (Hlen0 : (length (entered its0) <= 8)%nat) by (by eapply accepted_entered).
    assert (Hz : length (entered (env_items a0)) = 0%nat) by (apply accepted_env_none).
    assert (Hn0 : forall c m, Reject c m ∉ its0).
    { eapply perform_no_reject; [|exact Hp0]. intros c' m' Hy. destruct (reads_codes _ _ _ _ _ _ _ _ Hr Hy) as [->|[->| ->]]; done. }
    assert (Hne : forall c m, Reject c m ∉ its).
    { intros c' m' Hy. assert (Hy' : Reject c' m' ∈ env_items a0) by (rewrite He; apply elem_of_app; by left).
      apply env_of_calls in Hy' as (? & ? & ? & [=]). }
    assert (Hpp : perform a (its0 ++ its) = Ok (0, a1)) by (by rewrite perform_app, Hp0).
    rewrite Hpp in Hb. injection Hb as <-. rewrite He in Hite, Hz.
    assert (Hit : forall y, y ∈ its0 ++ its -> item_ok (decls a) y).
    { intros y Hy. apply elem_of_app in Hy as [Hy|Hy]; [by apply Hit0|]. apply Hite, elem_of_app. by left. }
    change (its ++ Call t i v :: its2) with (its ++ [Call t i v] ++ its2) in Hz. rewrite !entered_app, !app_length in Hz.
    assert (Hlen : (length (entered (its0 ++ its)) <= 8)%nat) by (rewrite entered_app, app_length; lia).
    destruct (Hbefore (its0 ++ its) a1 Hit Hlen Hpp) as (F & K & I & D1 & R1 & S1).
    pose proof (orderly_keys _ _ _ _ _ I D1 Hkeys) as HO.
    destruct (item_tidy a a1 (its0 ++ its) t i v F K c a2) as (V' & F' & K' & I2 & O2); try done.
    { apply Hite, elem_of_app. right. left. }
    destruct (parsed_stack a argv its0 0 a0 HS HR Hac Hst Hr Hp0) as (Q1 & Q2 & Q3 & Q4 & Q5 & Q6 & Q7).
    assert (Fr2 : a_root a2 = a_root a1 /\ a_stack a2 = a_stack a1 /\ decls a2 = decls a1).
    { cbn [perform] in Hx. apply rbind_Ok in Hx as ([s3 a3] & E3 & Hx). cbv beta iota in Hx.
      assert (a3 = a2) as -> by (destruct (s3 =? 0); by injection Hx).
      pose proof (execute_callbacks_frame _ _ _ _ _ _ E3) as []. done. }
    destruct Fr2 as (FR & FS & FD).
    assert (Hp3 : perform a0 (env_items a0) = Ok (c, a2)).
    { rewrite He, perform_app, Hp by done. cbn [rbind]. change (0 =? 0) with true. cbv iota. by apply perform_head. }
    assert (Herr1 : a_err a0 = 0) by (rewrite (perform_err _ _ _ Hp0 Q7); done).
    unfold argus_parse in Er. rewrite (parse_reads _ _ _ _ _ _ HS HR Hr), Hp0 in Er. cbn [rbind] in Er.
    change (0 =? SHOULD_EXIT) with false in Er. change (negb (0 =? SUCCESS)) with false in Er. cbv iota in Er.
    rewrite (set_err_same _ Herr1) in Er.
    assert (HR0 : is_Some (decls a0 !! a_root a0)) by (by rewrite (perform_decls _ _ _ _ Hp0), Q3).
    pose proof (load_env_vars_spec a0 HR0 Q1 Q2) as Henv. rewrite Hp3 in Henv.
    destruct (load_env_vars a0) as [[st' a4]|] eqn:El; [|done]. cbn [rbind] in Er. destruct Henv as [-> Henv].
    change SUCCESS with 0 in Er. destruct (Z.eqb_spec c 0) as [|_]; [done|]. cbn [negb] in Er.
    apply rbind_Ok in Er as (a5 & E5 & Er). injection Er as <- <-.
    destruct Henv as (X1 & X2 & X3 & X4 & X5 & X6 & X7 & X8).
    apply Hback; [by intros [= ?]|]. intros l b Hl.
    eapply (free_lost a a4 _ _ a5 Hrdy); [|unfold stack_ok|..|exact E5|exact Hsteps|exact Hl].
    + eapply restored_freeable; [exact X8|exact X5|]. by eapply tidy_freeable.
    + rewrite X2, X7, FS, FD. exact S1.
    + by rewrite X7, X1, FR, FD, D1, R1.
Qed.
End midway.
