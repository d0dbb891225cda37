(** * Carrying out items, releasing memory *)
From Coq Require Import Lia.
From stdpp Require Import sets.
From Verif Require Import Api LibProofs FrameProofs SpecGrammar GrammarProofs GrammarLemmas ActiveProofs SpecAfter EnvProofs AfterFacts
  AfterProofs CallProofs WholeProofs SpecStructure StructProofs SpecMemory SpecContents SpecSafe HeapProofs ListProofs ArrayProofs
  FlagProofs ArrayHandlers MapProofs MapHandlers MapFlags MapWhole FreeProofs SafeProofs SafeContext.

Section perform.
Context `{Libc}.

(** Every selected subcommand leads to a table. *)
Definition stack_ok (a : argus) : Prop :=
  forall r, r ∈ a_stack a -> exists t, subtable (decls a) r = Some t /\ is_Some (decls a !! t).
Lemma stack_sub a r : stack_ok a -> r ∈ a_stack a -> exists t, sub_of a r = Ok (Some t) /\ is_Some (decls a !! t) /\ subtable (decls a) r = Some t.
Proof.
  intros Hs Hr. destruct (Hs r Hr) as (t & Ht & HT). exists t. split; [|done]. rewrite sub_of_decls. unfold subtable in Ht.
  destruct (decls a !! fst r) as [T|]; [|done]. destruct (T !! snd r); [|done]. by rewrite Ht.
Qed.
Lemma stack_active a : stack_ok a -> exists act, get_active_options a = Ok act.
Proof.
  intros Hs. unfold get_active_options. destruct (last (a_stack a)) as [r|] eqn:El; [|eauto].
  destruct (stack_sub a r Hs) as (t & -> & _); [|eauto]. by apply last_Some_elem_of.
Qed.

(** Items that can be carried out. *)
Definition item_ok (D : list (list decl)) (x : item) : Prop :=
  match x with
  | Call t i v => exists T d, D !! t = Some T /\ T !! i = Some d /\
      (v = None -> d_vtype d = VT_FLAG) /\ (forall s, v = Some s -> harmless_text d s)
  | Enter t i => exists T d t', D !! t = Some T /\ T !! i = Some d /\ d_handler d = None /\ d_sub d = Some t' /\ is_Some (D !! t')
  | Reject c _ => c <> 0
  end.

Lemma texts_app t i its1 its2 : texts t i (its1 ++ its2) = texts t i its1 ++ texts t i its2.
Proof. apply omap_app. Qed.
Lemma texts_call t i t' i' v its : texts t i (Call t' i' v :: its) =
  (if bool_decide ((t, i) = (t', i')) then vlist v else []) ++ texts t i its.
Proof.
  unfold texts. cbn [omap list_omap]. destruct v as [s|]; cbn [vlist].
  - destruct (decide (t' = t /\ i' = i)) as [[-> ->]|Hne].
    + rewrite !bool_decide_eq_true_2 by done. done.
    + rewrite !bool_decide_eq_false_2; [done|naive_solver|naive_solver].
  - by destruct (bool_decide _).
Qed.
Lemma invar_texts clean a V V' F K : (forall t i, V t i = V' t i) -> invar clean a V F K -> invar clean a V' F K.
Proof. intros HV [I1 I2 I3 I4 I5 I6 I7]. split; try done. intros t i o Ho. rewrite <- HV. by apply I3. Qed.

Lemma perform_inv its : qsort_sorts -> forall clean a V F K, invar clean a V F K -> stack_ok a ->
  (forall x, x ∈ its -> item_ok (decls a) x) -> (length (a_stack a) + length (entered its) <= 8)%nat ->
  exists st a' F' K', perform a its = Ok (st, a') /\ decls a' = decls a /\ a_root a' = a_root a /\ stack_ok a' /\
    (st = 0 -> a_stack a' = a_stack a ++ entered its) /\
    invar (clean && (st =? 0)) a' (fun t i => V t i ++ texts t i its) F' K'.
Proof.
  intros HQ. induction its as [|x its IH]; intros clean a V F K I Hs Hx Hd; cbn [perform].
  { exists 0, a, F, K. split_and!; try done; [by rewrite app_nil_r|]. rewrite andb_true_r.
    eapply invar_texts; [|exact I]. intros t i. by rewrite app_nil_r. }
  pose proof (Hx x ltac:(left)) as Hx1. assert (Hx2 : forall y, y ∈ its -> item_ok (decls a) y) by (intros; apply Hx; by right).
  destruct x as [t i v|t i|c m]; cbn [item_ok] in Hx1.
  - destruct Hx1 as (T & d & HT & Hd' & Hnone & Hharm). destruct (decls_entry _ _ _ _ _ HT Hd') as (o & Ho & <-). apply entry_get in Ho.
    destruct (exec_inv clean a V F K t i o v HQ I Ho (stack_active _ Hs) Hnone Hharm) as (st & a1 & F1 & K1 & E & I1).
    rewrite E. cbn [rbind]. pose proof (execute_callbacks_frame _ _ _ _ _ _ E) as [Fr Fs Fp Fd _].
    assert (Hs1 : stack_ok a1) by (unfold stack_ok; by rewrite Fs, Fd).
    destruct (Z.eqb_spec st 0) as [->|Hst].
    + rewrite andb_true_r in I1. rewrite <- Fd in Hx2.
      destruct (IH clean a1 _ F1 K1 I1 Hs1 Hx2) as (st & a2 & F2 & K2 & E2 & D2 & R2 & S2 & T2 & I2).
      { rewrite Fs. exact Hd. }
      exists st, a2, F2, K2. split_and!; try done; [congruence|congruence|by rewrite Fs in T2|].
      eapply invar_texts; [|exact I2]. intros t' i'. cbn beta. rewrite texts_call. unfold extend, upd.
      destruct (bool_decide ((t', i') = (t, i))) eqn:Eb; [|done]. apply bool_decide_eq_true_1 in Eb as [= -> ->]. by rewrite <- app_assoc.
    + eexists _, _, F1, K1. split_and!; try done. destruct (Z.eqb_spec st 0) as [|_]; [done|]. rewrite andb_false_r in *. by eapply invar_weaken.
  - destruct Hx1 as (T & d & t' & HT & Hd' & Hh & Ht' & HT'). destruct (decls_entry _ _ _ _ _ HT Hd') as (o & Ho & Ho'). apply entry_get in Ho.
    unfold select. rewrite Ho. cbn [rbind]. cbn [entered omap list_omap] in Hd. cbn [length] in Hd.
    destruct (Nat.ltb_spec (length (a_stack a)) 8) as [_|]; [|simpl in Hd; lia]. cbn [rbind].
    set (a1 := set_stack _ _).
    assert (Fd : decls a1 = decls a) by (eapply decls_put; [exact Ho|done]).
    assert (Hplain : shape_of (decl_of o) = Plain) by (unfold shape_of; by rewrite Ho', Hh).
    assert (I1 : invar clean a1 V (upd F t i (F t i)) (upd K t i (K t i ++ []))).
    { eapply (invar_step clean clean a a1 V V F K t i o (with_set o true) (F t i) []); try done.
      - intros t1 i1 Hne. apply (get_put_other a); done.
      - by apply (get_put_same a t i o).
      - apply (iv_oom _ _ _ _ _ I).
      - rewrite app_nil_r. apply moves_refl.
      - intros l []%elem_of_nil.
      - pose proof (iv_entry _ _ _ _ _ I _ _ _ Ho) as HE. rewrite app_nil_r. unfold entry_inv in *. cbn [with_set decl_of is_allocated].
        rewrite Hplain in *. destruct HE as (E1 & E2 & E3 & E4). split_and!; try done. unfold typed. cbn. by rewrite Ho', Hh. }
    rewrite <- Fd in Hx2.
    destruct (IH clean a1 V _ _ I1) as (st & a2 & F2 & K2 & E2 & D2 & R2 & S2 & T2 & I2); [| done | |].
    + intros r Hr. rewrite Fd. unfold a1 in Hr. cbn [set_stack a_stack] in Hr. apply elem_of_app in Hr as [Hr|Hr]; [by apply Hs|].
      apply elem_of_list_singleton in Hr as ->. exists t'. split; [|done]. unfold subtable. cbn [fst snd]. by rewrite HT, Hd'.
    + unfold a1. cbn [set_stack a_stack]. rewrite app_length. simpl. simpl in Hd. unfold entered. lia.
    + exists st, a2, F2, K2. split_and!; try done; [congruence|]. intros Hst. rewrite (T2 Hst). unfold a1. cbn [set_stack a_stack].
      by rewrite <- app_assoc.
  - eexists _, _, F, K. split_and!; try done. destruct (Z.eqb_spec c 0) as [|_]; [done|]. rewrite andb_false_r.
    eapply invar_weaken, invar_same; [..|exact I]; done.
Qed.

(** ** Validation after parsing *)
Lemma options_set_ok h T : forall l gn excl fst,
  (forall o, o ∈ l -> is_set o = true -> exists st ev, call_validators o h = Ok (st, ev)) ->
  exists st ev, validate_options_set h T l gn excl fst = Ok (st, ev).
Proof.
  induction l as [|o l IH]; intros gn excl fst' Hl; cbn [validate_options_set]; [eauto|].
  assert (IH' : forall gn excl first, exists st ev, validate_options_set h T l gn excl first = Ok (st, ev)).
  { intros. apply IH. intros. apply Hl; [by right|done]. }
  destruct (is_type TGroup o); [apply IH'|]. destruct (_ && _ && _); [eauto|].
  destruct (is_set o) eqn:Es; [|apply IH']. destruct (_ && _); [eauto|].
  destruct (Hl o ltac:(left) Es) as (st & ev & ->). cbn [rbind]. destruct (negb _); [eauto|].
  destruct (match d_require (decl_of o) with Some r => _ | None => _ end) as [st1 ev1]. destruct (negb _); [eauto|].
  destruct (match d_conflict (decl_of o) with Some r => _ | None => _ end) as [st2 ev2]. destruct (negb _); [eauto|].
  destruct (IH' gn excl (if excl then d_name (decl_of o) else fst')) as (st' & ev' & ->). cbn [rbind]. eauto.
Qed.
Lemma entry_typed clean h o vs fp lk : entry_inv clean h o vs fp lk -> typed o.
Proof.
  unfold entry_inv. destruct (shape_of (decl_of o)) eqn:Es; [tauto|..]; intros _; unfold typed.
  - apply shape_listed in Es as (f & b & -> & Hf). by destruct f.
  - apply shape_mapped in Es as (f & -> & Hf). by destruct f.
Qed.
Lemma table_check_ok clean a V F K t : invar clean a V F K -> is_Some (decls a !! t) ->
  exists st ev, validate_table a (Some t) = Ok (st, apply_events a ev).
Proof.
  intros I HT. destruct HT as [T0 HT]. apply decls_table in HT as (T & HT & _). unfold validate_table. cbn [table_ptr]. rewrite HT. cbn [rbind].
  destruct (options_set_ok (a_heap a) T T None false None) as (st & ev & ->).
  - intros o Ho Hs. apply elem_of_list_lookup in Ho as [i Hi].
    assert (Hg : get_option a t i = Ok o) by (unfold get_option; rewrite HT; cbn [rbind]; unfold cell; by rewrite Hi).
    unfold call_validators. destruct (d_validators (decl_of o)) as [l|] eqn:El; [|eauto].
    apply post_ok; [|by eapply entry_typed, (iv_entry _ _ _ _ _ I)|done].
    intros e He. by eapply (ft_validators _ (iv_fits _ _ _ _ _ I _ _ _ Hg)).
  - cbn [rbind]. eauto.
Qed.
Lemma stack_check_ok clean V F K stk : forall a, invar clean a V F K -> stack_ok a -> (forall r, r ∈ stk -> r ∈ a_stack a) ->
  exists st ev, validate_stack a stk = Ok (st, apply_events a ev).
Proof.
  induction stk as [|r stk IH]; intros a I Hs Hin; cbn [validate_stack]; [by exists 0, []|].
  destruct (stack_sub a r Hs) as (t & -> & HT & _); [apply Hin; left|]. cbn [rbind].
  destruct (table_check_ok _ _ _ _ _ t I HT) as (st & ev & ->). cbn [rbind]. destruct (st =? SUCCESS); [|eauto].
  destruct (IH (apply_events a ev)) as (st' & ev' & ->).
  - eapply invar_same; [apply apply_events_tabs|apply apply_events_heap|done].
  - unfold stack_ok, decls. rewrite apply_events_stack, apply_events_tabs. exact Hs.
  - intros r' Hr'. rewrite apply_events_stack. apply Hin. by right.
  - exists st', (ev ++ ev'). f_equal. f_equal. unfold apply_events. by rewrite fold_left_app.
Qed.
Lemma post_check_ok clean a V F K : invar clean a V F K -> stack_ok a -> is_Some (decls a !! a_root a) ->
  exists st ev, post_parse_validation a = Ok (st, apply_events a ev).
Proof.
  intros I Hs HR. unfold post_parse_validation.
  destruct (table_check_ok _ _ _ _ _ _ I HR) as (st & ev & ->). cbn [rbind]. destruct (st =? SUCCESS); [|eauto].
  destruct (stack_check_ok clean V F K (a_stack (apply_events a ev)) (apply_events a ev)) as (st' & ev' & ->).
  - eapply invar_same; [apply apply_events_tabs|apply apply_events_heap|done].
  - unfold stack_ok, decls. rewrite apply_events_stack, apply_events_tabs. exact Hs.
  - done.
  - exists st', (ev ++ ev'). f_equal. f_equal. unfold apply_events. by rewrite fold_left_app.
Qed.

(** ** Releasing memory *)

(** [freeable a F L]: every option whose value counts as allocated owns its blocks [F t i], alone;
    the other blocks alive satisfy [L]. *)
Record freeable (a : argus) (F : nat -> nat -> list nat) (L : nat -> Prop) : Prop := Freeable {
  fr_fits : forall t i o, get_option a t i = Ok o -> fits (decl_of o);
  fr_entry : forall t i o, get_option a t i = Ok o -> is_allocated o = true -> exists lk, entry_inv false (a_heap a) o [] (F t i) lk;
  fr_in : forall t i l, l ∈ F t i -> exists o, get_option a t i = Ok o /\ is_allocated o = true;
  fr_disj : forall t i t' i' l, (t, i) <> (t', i') -> l ∈ F t i -> l ∉ F t' i';
  fr_live : forall l b, bl (a_heap a) !! l = Some (Some b) -> L l \/ exists t i, l ∈ F t i;
}.
Lemma freeable_same a a' F L : a_tabs a' = a_tabs a -> a_heap a' = a_heap a -> freeable a F L -> freeable a' F L.
Proof.
  intros Ht Hh [I1 I2 I3 I4 I5].
  assert (Hg : forall t i, get_option a' t i = get_option a t i) by (intros; by apply get_option_tabs).
  split; rewrite ?Hh; try done; intros t i; setoid_rewrite Hg; eauto.
Qed.
(** What blocks are not released after the options of [a] have been. *)
Definition allocated_at (a : argus) (t i : nat) : bool :=
  match get_option a t i with Ok o => is_allocated o | UB _ => false end.
Lemma invar_freeable clean a V F K : invar clean a V F K ->
  freeable a (fun t i => if allocated_at a t i then F t i else [])
    (fun l => exists t i, l ∈ K t i \/ (l ∈ F t i /\ allocated_at a t i = false)).
Proof.
  intros [I1 I2 I3 I4 I5 I6 I7]. split.
  - done.
  - intros t i o Ho Ha. unfold allocated_at. rewrite Ho, Ha. exists (K t i). eapply entry_weaken. eauto.
  - intros t i l. unfold allocated_at. destruct (get_option a t i) as [o|] eqn:Ho; [|intros []%elem_of_nil].
    destruct (is_allocated o) eqn:Ha; [eauto|intros []%elem_of_nil].
  - intros t i t' i' l Hne Hl Hl'. apply (I5 t i t' i' l Hne).
    + destruct (allocated_at a t i); [done|by apply elem_of_nil in Hl].
    + destruct (allocated_at a t' i'); [done|by apply elem_of_nil in Hl'].
  - intros l b Hl. destruct (I7 l b Hl) as (t & i & [Hi|Hi]).
    + destruct (allocated_at a t i) eqn:Ea.
      * right. exists t, i. by rewrite Ea.
      * left. exists t, i. auto.
    + left. exists t, i. auto.
Qed.

Lemma free_one a F L t i o : freeable a F L -> get_option a t i = Ok o ->
  exists a', free_option a t i = Ok a' /\ freeable a' (upd F t i []) L /\ decls a' = decls a /\ a_stack a' = a_stack a /\ a_root a' = a_root a /\
    get_option a' t i = Ok (if is_allocated o then emptied o else o) /\
    (forall t' i', (t', i') <> (t, i) -> get_option a' t' i' = get_option a t' i').
Proof.
  intros I Ho. unfold free_option. rewrite Ho. cbn [rbind].
  destruct (is_allocated o) eqn:Ha.
  - destruct (fr_entry _ _ _ I _ _ _ Ho Ha) as [lk HE]. pose proof (fr_fits _ _ _ I _ _ _ Ho) as HF.
    assert (HR : runs free_option_value (Hst o (a_heap a) []) (fun _ s' => moves (F t i) (a_heap a) [] (h_heap s') /\ oom (h_heap s') = oom (a_heap a) /\ h_opt s' = emptied o)).
    { unfold entry_inv in HE. destruct (shape_of (decl_of o)) as [|k|k] eqn:Es.
      - destruct HE as [Ha' _]. congruence.
      - destruct HE as (c & HC & [HG _] & Hne & _). eapply free_array_runs; eauto.
      - destruct HE as (c & HC & [HG _] & Hne & _). eapply free_map_runs; eauto. }
    destruct HR as (u & s & -> & M & _ & Eo). cbn [rbind]. eexists. split; [done|]. rewrite Eo.
    set (a' := set_heap _ _).
    assert (Hsame : get_option a' t i = Ok (emptied o)) by (by eapply (get_put_same a)).
    assert (Hoth : forall t' i', (t', i') <> (t, i) -> get_option a' t' i' = get_option a t' i') by (intros; by apply (get_put_other a)).
    split; [|split_and!; try done; eapply (decls_put a); done].
    split.
    + intros t' i' o' Ho'. destruct (pair_dec t i t' i') as [[= -> ->]|Hne].
      * rewrite Hsame in Ho'. injection Ho' as <-. done.
      * rewrite Hoth in Ho' by done. by apply (fr_fits _ _ _ I t' i').
    + intros t' i' o' Ho' Ha'. destruct (pair_dec t i t' i') as [[= -> ->]|Hne].
      * rewrite Hsame in Ho'. injection Ho' as <-. done.
      * rewrite Hoth in Ho' by done. rewrite upd_other by done. destruct (fr_entry _ _ _ I _ _ _ Ho' Ha') as [lk' HE']. exists lk'.
        eapply entry_moves; [exact M| |exact HE']. intros l Hl. by apply (fr_disj _ _ _ I t' i' t i l).
    + intros t' i' l Hl. destruct (pair_dec t i t' i') as [[= -> ->]|Hne].
      * rewrite upd_same in Hl. by apply elem_of_nil in Hl.
      * rewrite upd_other in Hl by done. rewrite Hoth by done. by apply (fr_in _ _ _ I t' i' l).
    + intros t1 i1 t2 i2 l Hne H1 H2. destruct (pair_dec t i t1 i1) as [[= -> ->]|N1]; [rewrite upd_same in H1; by apply elem_of_nil in H1|].
      destruct (pair_dec t i t2 i2) as [[= -> ->]|N2]; [rewrite upd_same in H2; by apply elem_of_nil in H2|].
      rewrite upd_other in H1, H2 by done. by apply (fr_disj _ _ _ I t1 i1 t2 i2 l).
    + intros l b Hl. destruct (mv_live _ _ _ _ M _ _ Hl) as [[]%elem_of_nil|[Hn Hlt]].
      assert (Hl0 : bl (a_heap a) !! l = Some (Some b)) by (by rewrite <- (mv_frame _ _ _ _ M)).
      destruct (fr_live _ _ _ I _ _ Hl0) as [HL|(t1 & i1 & Hi)]; [by left|]. right. exists t1, i1. rewrite upd_other; [done|].
      intros [= -> ->]. done.
  - unfold free_option_value. cbn. rewrite Ha. cbn. eexists. split; [done|]. set (a' := set_heap _ _).
    assert (Hsame : get_option a' t i = Ok o) by (by eapply (get_put_same a)).
    assert (Hoth : forall t' i', (t', i') <> (t, i) -> get_option a' t' i' = get_option a t' i') by (intros; by apply (get_put_other a)).
    assert (Hall : forall t' i', get_option a' t' i' = get_option a t' i').
    { intros t' i'. destruct (pair_dec t i t' i') as [[= -> ->]|Hne]; [congruence|auto]. }
    split; [|split_and!; try done; eapply (decls_put a); done].
    assert (Hnil : F t i = []).
    { destruct (F t i) as [|l fp] eqn:EF; [done|]. destruct (fr_in _ _ _ I t i l) as (o1 & Ho1 & Ha1); [rewrite EF; left|]. congruence. }
    assert (HFe : forall t' i', upd F t i [] t' i' = F t' i').
    { intros t' i'. destruct (pair_dec t i t' i') as [[= -> ->]|Hne]; [by rewrite upd_same|by rewrite upd_other]. }
    destruct I as [I1 I2 I3 I4 I5]. split; try done.
    + intros t' i'. rewrite Hall. apply I1.
    + intros t' i'. rewrite Hall, HFe. apply I2.
    + intros t' i' l. rewrite HFe, Hall. apply I3.
    + intros t1 i1 t2 i2 l. rewrite !HFe. apply I4.
    + intros l b Hl. setoid_rewrite HFe. by apply (I5 l b).
Qed.

(** Releasing tables: allocated options of the tables are emptied, the others stay. *)
Definition freed (ts : nat -> Prop) (a a' : argus) : Prop :=
  decls a' = decls a /\ a_stack a' = a_stack a /\ a_root a' = a_root a /\
  forall t i o, get_option a t i = Ok o ->
    (get_option a' t i = Ok o /\ (ts t -> is_allocated o = false)) \/ (get_option a' t i = Ok (emptied o) /\ is_allocated o = true).
Lemma freed_refl a : freed (fun _ => False) a a.
Proof. split_and!; try done. intros. left. done. Qed.

Lemma free_from L t n : forall a F i T, freeable a F L -> a_tabs a !! t = Some T -> (i + n = length T)%nat ->
  exists a' F', free_options_from a t i n = Ok a' /\ freeable a' F' L /\ decls a' = decls a /\ a_stack a' = a_stack a /\ a_root a' = a_root a /\
    forall t' i' o, get_option a t' i' = Ok o ->
      get_option a' t' i' = Ok (if bool_decide (t' = t /\ (i <= i')%nat) && is_allocated o then emptied o else o).
Proof.
  induction n as [|n IH]; intros a F i T I HT Hl; cbn [free_options_from].
  { exists a, F. split_and!; try done. intros t' i' o Ho. rewrite Ho. case_bool_decide as Hb; [|done]. destruct Hb as [-> Hb].
    apply get_option_Ok in Ho as (T' & HT' & Ho). assert (T' = T) as -> by congruence. apply lookup_lt_Some in Ho. lia. }
  destruct (lookup_lt_is_Some_2 T i) as [o Ho]; [lia|].
  assert (Hg : get_option a t i = Ok o) by (apply get_option_Ok; eauto).
  destruct (free_one a F L t i o I Hg) as (a1 & -> & I1 & D1 & S1 & R1 & G1 & O1). cbn [rbind].
  assert (exists T1, a_tabs a1 !! t = Some T1 /\ length T1 = length T) as (T1 & HT1 & Hl1).
  { assert (Hd : decls a1 !! t = decls a !! t) by congruence. unfold decls in Hd. rewrite !list_lookup_fmap, HT in Hd.
    destruct (a_tabs a1 !! t) as [T1|]; [|done]. exists T1. split; [done|]. simpl in Hd. injection Hd as Hd.
    rewrite <- (map_length decl_of T1), <- (map_length decl_of T). by f_equal. }
  destruct (IH a1 _ (S i) T1 I1 HT1) as (a2 & F2 & -> & I2 & D2 & S2 & R2 & G2); [lia|].
  exists a2, F2. split_and!; try done; [congruence|congruence|congruence|].
  intros t' i' o' Ho'. destruct (pair_dec t i t' i') as [[= -> ->]|Hne].
  - assert (o' = o) as -> by congruence. rewrite (G2 _ _ _ G1). rewrite bool_decide_eq_false_2 by lia.
    rewrite bool_decide_eq_true_2 by (split; [done|lia]). done.
  - rewrite (G2 t' i' o') by (by rewrite O1). replace (bool_decide (t' = t /\ (S i <= i')%nat)) with (bool_decide (t' = t /\ (i <= i')%nat)); [done|].
    apply bool_decide_ext. split; (intros [-> Hle]; split; [done|]); [|lia]. assert (i' <> i) by congruence. lia.
Qed.
Lemma free_table a F L t : freeable a F L -> is_Some (decls a !! t) ->
  exists a' F', free_options a (Some t) = Ok a' /\ freeable a' F' L /\ freed (eq t) a a'.
Proof.
  intros I HT. assert (exists T, a_tabs a !! t = Some T) as [T HT'].
  { unfold decls in HT. rewrite list_lookup_fmap in HT. destruct (a_tabs a !! t); [eauto|by destruct HT]. }
  unfold free_options. cbn [table_ptr]. unfold table. rewrite HT'. cbn [rbind].
  destruct (free_from L t (length T) a F 0 T I HT' eq_refl) as (a' & F' & E & I' & D & S & R & G).
  exists a', F'. split; [done|]. split; [done|]. split_and!; try done. intros t' i' o Ho. rewrite (G _ _ _ Ho).
  destruct (is_allocated o) eqn:Ea; [|rewrite andb_false_r; auto].
  rewrite andb_true_r. case_bool_decide as Hb; [auto|]. left. split; [done|]. intros <-. destruct Hb. split; [done|lia].
Qed.
Lemma freed_trans P Q a a1 a2 : freed P a a1 -> freed Q a1 a2 -> freed (fun t => P t \/ Q t) a a2.
Proof.
  intros (D1 & S1 & R1 & G1) (D2 & S2 & R2 & G2). split_and!; try congruence. intros t i o Ho.
  destruct (G1 t i o Ho) as [[E1 H1]|[E1 H1]]; destruct (G2 _ _ _ E1) as [[E2 H2]|[E2 H2]]; auto.
  left. split; [done|]. intros [?|?]; auto.
Qed.
Lemma free_stack_ok L stk : forall a F, freeable a F L -> stack_ok a -> (forall r, r ∈ stk -> r ∈ a_stack a) ->
  exists a' F', free_stack a stk = Ok a' /\ freeable a' F' L /\
    freed (fun t => exists r, r ∈ stk /\ subtable (decls a) r = Some t) a a'.
Proof.
  induction stk as [|r stk IH]; intros a F I Hs Hin; cbn [free_stack].
  { exists a, F. split; [done|]. split; [done|]. split_and!; try done. intros t i o Ho. left. split; [done|]. intros (r & []%elem_of_nil & _). }
  destruct (stack_sub a r Hs) as (t & -> & HT & Hsub); [apply Hin; left|]. cbn [rbind].
  destruct (free_table a F L t I HT) as (a1 & F1 & -> & I1 & Fr1). cbn [rbind]. pose proof Fr1 as (D1 & S1 & R1 & _).
  destruct (IH a1 F1 I1) as (a2 & F2 & E2 & I2 & Fr2).
  - unfold stack_ok. rewrite S1, D1. exact Hs.
  - intros r' Hr'. rewrite S1. apply Hin. by right.
  - exists a2, F2. split; [done|]. split; [done|]. pose proof (freed_trans _ _ _ _ _ Fr1 Fr2) as (D & S & R & G).
    split_and!; try done. intros t' i' o Ho. destruct (G t' i' o Ho) as [[E Hf]|E]; [|by right]. left. split; [done|].
    intros (r' & Hr' & Hs'). apply Hf. apply elem_of_cons in Hr' as [->|Hr']; [left; congruence|right]. exists r'. by rewrite D1.
Qed.
Lemma argus_free_ok a F L : freeable a F L -> stack_ok a -> is_Some (decls a !! a_root a) ->
  exists a' F', argus_free a = Ok a' /\ freeable a' F' L /\ freed (in_play a) a a'.
Proof.
  intros I Hs HR. unfold argus_free. destruct (free_table a F L _ I HR) as (a1 & F1 & -> & I1 & Fr1). cbn [rbind].
  pose proof Fr1 as (D1 & S1 & R1 & _).
  destruct (free_stack_ok L (a_stack a1) a1 F1 I1) as (a2 & F2 & E2 & I2 & Fr2).
  - unfold stack_ok. rewrite S1, D1. exact Hs.
  - done.
  - exists a2, F2. split; [done|]. split; [done|]. pose proof (freed_trans _ _ _ _ _ Fr1 Fr2) as (D & S & R & G).
    split_and!; try done. intros t' i' o Ho. destruct (G t' i' o Ho) as [[E Hf]|E]; [|by right]. left. split; [done|].
    intros [->|(r & Hr & Hsr)]; apply Hf; [by left|right]. exists r. rewrite S1, D1. done.
Qed.

(** Nothing allocated: nothing happens. *)
Definition released (a : argus) : Prop :=
  forall t i o, in_play a t -> get_option a t i = Ok o -> is_allocated o = false.
Lemma freed_released a a' : freed (in_play a) a a' -> released a'.
Proof.
  intros (D & S & R & G) t i o Ht Ho.
  assert (Ht' : in_play a t).
  { unfold in_play in *. rewrite R, S, D in Ht. done. }
  assert (exists o0, get_option a t i = Ok o0) as [o0 Ho0].
  { apply entry_get, entry_decls in Ho as (T & HT & Hd). rewrite D in HT. destruct (decls_entry _ _ _ _ _ HT Hd) as (o0 & Ho0 & _).
    exists o0. by apply entry_get. }
  destruct (G t i o0 Ho0) as [[E Hf]|[E _]]; rewrite E in Ho; injection Ho as <-; [auto|done].
Qed.
Lemma put_same a t i o : get_option a t i = Ok o -> put_option a t i o = a.
Proof.
  intros Ho. apply get_option_Ok in Ho as (T & HT & Ho). unfold put_option, set_tabs.
  replace (alter (fun T0 => <[i := o]> T0) t (a_tabs a)) with (a_tabs a); [by destruct a|].
  apply list_eq. intros j. destruct (decide (j = t)) as [->|Hj].
  - rewrite list_lookup_alter, HT. simpl. by rewrite list_insert_id.
  - by rewrite list_lookup_alter_ne.
Qed.
Lemma free_from_none a t T n : forall i, a_tabs a !! t = Some T -> (i + n = length T)%nat ->
  (forall o, o ∈ T -> is_allocated o = false) -> free_options_from a t i n = Ok a.
Proof.
  induction n as [|n IH]; intros i HT Hl Hn; cbn [free_options_from]; [done|].
  destruct (lookup_lt_is_Some_2 T i) as [o Ho]; [lia|].
  assert (Hg : get_option a t i = Ok o) by (apply get_option_Ok; eauto).
  unfold free_option at 1. rewrite Hg. cbn [rbind]. unfold free_option_value. cbn. rewrite (Hn o) by (by eapply elem_of_list_lookup_2). cbn.
  rewrite (put_same _ _ _ _ Hg). replace (set_heap a (a_heap a)) with a by (by destruct a). apply IH; [done|lia|done].
Qed.
Lemma free_table_none a t : is_Some (decls a !! t) -> (forall i o, get_option a t i = Ok o -> is_allocated o = false) ->
  free_options a (Some t) = Ok a.
Proof.
  intros HT Hn. assert (exists T, a_tabs a !! t = Some T) as [T HT'].
  { unfold decls in HT. rewrite list_lookup_fmap in HT. destruct (a_tabs a !! t); [eauto|by destruct HT]. }
  unfold free_options. cbn [table_ptr]. unfold table. rewrite HT'. cbn [rbind]. apply (free_from_none a t T); [done|done|].
  intros o Ho. apply elem_of_list_lookup in Ho as [i Hi]. apply (Hn i). apply get_option_Ok. eauto.
Qed.
Lemma argus_free_none a : stack_ok a -> is_Some (decls a !! a_root a) -> released a -> argus_free a = Ok a.
Proof.
  intros Hs HR Hn. unfold argus_free. rewrite free_table_none; [|done|intros i o; apply Hn; by left]. cbn [rbind].
  assert (Hin : forall r, r ∈ a_stack a -> r ∈ a_stack a) by done. revert Hin. generalize (a_stack a) at 1 3 as stk.
  induction stk as [|r stk IH]; intros Hin; cbn [free_stack]; [done|].
  destruct (stack_sub a r Hs) as (t & -> & HT & Hsub); [apply Hin; left|]. cbn [rbind].
  rewrite free_table_none; [|done|]. 2:{ intros i o. apply Hn. right. exists r. split; [|done]. apply Hin. left. }
  cbn [rbind]. apply IH. intros r' Hr'. apply Hin. by right.
Qed.

(** ** The whole parse *)
Lemma cluster_none T t rest cs its r t' i' : cluster T t rest cs its r -> Call t' i' None ∈ its ->
  t' = t /\ exists d, T !! i' = Some d /\ flag_option d.
Proof.
  induction 1; intros Hx; try (by apply elem_of_nil in Hx);
    try (apply elem_of_list_singleton in Hx; done).
  apply elem_of_cons in Hx as [[= -> ->]|Hx]; eauto.
Qed.
Lemma reads_none D t k only argv its : reads D t k only argv its -> forall t' i', Call t' i' None ∈ its ->
  exists T d, D !! t' = Some T /\ T !! i' = Some d /\ flag_option d.
Proof.
  induction 1; intros t0 i0 Hx; try (apply elem_of_cons in Hx as [Hx|Hx]; [try done|]);
    try (by apply elem_of_nil in Hx); try (by eauto).
  - injection Hx as -> ->. eauto 10.
  - apply elem_of_app in Hx as [Hx|Hx]; [|eauto]. eapply cluster_none in Hx as (-> & d & ? & ?); eauto.
  - eapply cluster_none in Hx as (-> & d & ? & ?); eauto.
Qed.

Lemma items_ok a argv its : accepted a -> no_strays (decls a) (a_root a) -> harmless_input a argv ->
  reads (decls a) (a_root a) 0 false argv its -> forall x, x ∈ its -> item_ok (decls a) x.
Proof.
  intros Ha Hns Hh Hr x Hx. pose proof (accepted_ready _ Ha Hns) as [_ _ HR HS _ _]. destruct x as [t i v|t i|c m]; cbn [item_ok].
  - destruct (accepted_handlers a argv its t i v Ha Hns (or_introl Hr) Hx) as (T & d & f & HT & Hd & _).
    exists T, d. split; [done|]. split; [done|]. split.
    + intros ->. destruct (reads_none _ _ _ _ _ _ Hr t i Hx) as (T' & d' & HT' & Hd' & Hf). rewrite HT in HT'. injection HT' as <-.
      rewrite Hd in Hd'. injection Hd' as <-. exact Hf.
    + intros s ->. exact (Hh its (or_introl Hr) t i s T d Hx HT Hd).
  - assert (He : (t, i) ∈ entered its).
    { unfold entered. apply elem_of_list_omap. eexists. split; [exact Hx|done]. }
    destruct (chain_subtables _ _ _ (reads_chain _ _ _ _ _ _ HS HR Hr) _ He) as (t' & Hsub & HT').
    unfold subtable in Hsub. cbn [fst snd] in Hsub. destruct (decls a !! t) as [T|] eqn:HT; [|done].
    destruct (T !! i) as [d|] eqn:Hd; [|done]. exists T, d, t'. split_and!; try done.
    pose proof (reads_enter _ _ _ _ _ _ Hr _ _ _ _ Hx HT Hd) as Hty.
    pose proof (accepted_entries a t T i d Ha) as Hok. rewrite Hty in Hok. apply Hok; [|done|done]. apply Hns. eauto.
  - destruct (reads_codes _ _ _ _ _ _ c m Hr Hx) as [->|[->| ->]]; done.
Qed.
Lemma env_items_ok a argv its1 a1 : accepted a -> no_strays (decls a) (a_root a) -> harmless_input a argv ->
  reads (decls a) (a_root a) 0 false argv its1 -> perform a its1 = Ok (0, a1) ->
  forall x, x ∈ env_items a1 -> item_ok (decls a1) x.
Proof.
  intros Ha Hns Hh Hr Hp x Hx. pose proof (accepted_ready _ Ha Hns) as Hf. rewrite (perform_decls _ _ _ _ Hp).
  destruct (env_of_calls _ _ _ x Hx) as (t & i & v & ->).
  assert (Has : assigned a argv (its1 ++ env_items a1)) by (exists its1, a1; done).
  assert (Hx' : Call t i v ∈ its1 ++ env_items a1) by (apply elem_of_app; by right).
  destruct (assigned_calls a argv _ Hf Has _ _ _ Hx') as (_ & T & d & HT & Hd & _).
  exists T, d. split; [done|]. split; [done|]. split.
  - intros ->. apply env_items_mem in Hx as (_ & o & _ & _ & [? ?]). done.
  - intros s ->. exact (Hh _ (or_intror Has) t i s T d Hx' HT Hd).
Qed.

(** What is left after a failed parse. *)
Definition abandoned (a : argus) : Prop :=
  stack_ok a /\ is_Some (decls a !! a_root a) /\ released a.
Definition holding (a : argus) (its : list item) : Prop :=
  stack_ok a /\ is_Some (decls a !! a_root a) /\ exists F K, invar true a (fun t i => texts t i its) F K.

Lemma free_after clean a V F K : invar clean a V F K -> stack_ok a -> is_Some (decls a !! a_root a) ->
  exists a', argus_free a = Ok a' /\ abandoned a' /\ decls a' = decls a.
Proof.
  intros I Hs HR. destruct (argus_free_ok _ _ _ (invar_freeable _ _ _ _ _ I) Hs HR) as (a' & F' & E & I' & Fr).
  exists a'. split; [done|]. pose proof (freed_released _ _ Fr) as Hrel. destruct Fr as (D & S & R & _). split; [|done].
  split_and!; [|by rewrite D, R|done]. unfold stack_ok. rewrite S, D. exact Hs.
Qed.

Lemma parse_safe a argv : accepted a -> no_strays (decls a) (a_root a) -> ready a -> qsort_sorts -> harmless_input a argv ->
  exists o a', argus_parse a argv = Ok (o, a') /\ decls a' = decls a /\
    ((o = Returned 0 /\ exists its, assigned a argv its /\ perform a its = Ok (0, a') /\ holding a' its) \/
     (o <> Returned 0 /\ abandoned a')).
Proof.
  intros Ha Hns Hrdy HQ Hh. pose proof (accepted_ready _ Ha Hns) as [Hst Herr HR HS Hac Hnm].
  destruct (reads_total _ _ 0%nat false argv HS HR) as [its Hr]. unfold argus_parse. rewrite (parse_reads _ _ _ _ _ _ HS HR Hr).
  destruct (perform_inv its HQ true a _ _ _ (invar_ready _ Hrdy)) as (st & a1 & F1 & K1 & Hp & D1 & R1 & S1 & T1 & I1).
  { unfold stack_ok. rewrite Hst. intros r []%elem_of_nil. }
  { by eapply items_ok. }
  { rewrite Hst. by eapply accepted_entered. }
  rewrite Hp. cbn [rbind]. change SHOULD_EXIT with 1. change SUCCESS with 0. cbn [andb] in I1.
  assert (HR1 : is_Some (decls a1 !! a_root a1)) by (by rewrite D1, R1).
  destruct (Z.eqb_spec st 1) as [->|H1].
  { destruct (free_after _ (set_err a1 1) _ F1 K1 (invar_same _ a1 (set_err a1 1) _ _ _ eq_refl eq_refl I1) S1 HR1) as (a2 & -> & HA & D2).
    cbn [rbind]. eexists _, _. split; [done|]. split; [by rewrite D2|]. by right. }
  destruct (Z.eqb_spec st 0) as [->|H0]; cbn [negb].
  2:{ destruct (free_after _ (add_log (set_err a1 st) [EUsage]) _ F1 K1 (invar_same _ a1 (add_log (set_err a1 st) [EUsage]) _ _ _ eq_refl eq_refl I1) S1 HR1) as (a2 & -> & HA & D2).
      cbn [rbind]. eexists _, _. split; [done|]. split; [by rewrite D2|]. right. split; [|done]. by intros [= ?]. }
  destruct (parsed_stack a argv its 0 a1 HS HR Hac Hst Hr Hp) as (Q1 & Q2 & Q3 & Q4 & Q5 & Q6 & Q7).
  assert (Herr1 : a_err a1 = 0) by (rewrite (perform_err _ _ _ Hp Q7); done).
  rewrite (set_err_same _ Herr1) in *.
  pose proof (load_env_vars_spec a1 HR1 Q1 Q2) as Henv.
  destruct (perform_inv (env_items a1) HQ true a1 _ _ _ I1 S1) as (st & a2 & F2 & K2 & Hp2 & D2 & R2 & S2 & T2 & I2).
  { by eapply env_items_ok. }
  { rewrite (accepted_env_none a1), (T1 eq_refl), Hst, Nat.add_0_r. by eapply accepted_entered. }
  rewrite Hp2 in Henv. destruct (load_env_vars a1) as [[st' a3]|] eqn:El; [|done]. cbn [rbind]. destruct Henv as [-> Henv].
  assert (HR2 : is_Some (decls a2 !! a_root a2)) by (by rewrite D2, R2).
  destruct (Z.eqb_spec st 0) as [->|Hne]; cbn [negb].
  - subst a3. destruct (post_check_ok _ _ _ _ _ I2 S2 HR2) as (st & ev & Epost). rewrite Epost. cbn [rbind].
    assert (I3 : invar true (apply_events a2 ev) (fun t i => (([] : list cstr) ++ texts t i its) ++ texts t i (env_items a1)) F2 K2).
    { eapply invar_same; [apply apply_events_tabs|apply apply_events_heap|exact I2]. }
    assert (S3 : stack_ok (apply_events a2 ev)) by (unfold stack_ok, decls; rewrite apply_events_stack, apply_events_tabs; exact S2).
    assert (D3 : decls (apply_events a2 ev) = decls a2) by (unfold decls; by rewrite apply_events_tabs).
    assert (HR3 : is_Some (decls (apply_events a2 ev) !! a_root (apply_events a2 ev))) by (by rewrite D3, apply_events_root).
    destruct (Z.eqb_spec st 0) as [->|Hst']; cbn [negb].
    + eexists _, _. split; [done|]. split; [congruence|]. left. split; [done|].
      exists (its ++ env_items a1). split; [exists its, a1; done|].
      assert (apply_events a2 ev = a2) as Eev.
      { apply post_spec in Epost as [(_ & -> & _)|(Hc & _)]; [done|done|]. eapply decls_named; [|exact Hnm]. congruence. }
      rewrite Eev in *. split; [by rewrite perform_app, Hp|]. split; [done|]. split; [done|].
      exists F2, K2. eapply invar_texts; [|exact I3]. intros t i. by rewrite texts_app.
    + destruct (free_after _ _ _ F2 K2 I3 S3 HR3) as (a4 & -> & HA & D4). cbn [rbind].
      eexists _, _. split; [done|]. split; [congruence|]. right. split; [|done]. by intros [= ?].
  - destruct Henv as (E1 & E2 & E3 & E4 & E5 & E6 & E7 & E8).
    pose proof (invar_freeable _ _ _ _ _ I2) as If.
    assert (If3 : exists F L, freeable a3 F L).
    { eexists _, _. destruct E8 as [E8|(t & i & o & v & Ho & Hb & E8)]; [by eapply freeable_same|].
      eapply (freeable_same (put_option a2 t i (with_value (with_set o true) v))); [done|by rewrite E5|].
      assert (Hplain : shape_of (decl_of o) = Plain).
      { pose proof (ft_shape _ (fr_fits _ _ _ If _ _ _ Ho)) as Hsh. destruct (shape_of (decl_of o)) as [|k|k]; [done|..];
          destruct Hsh as (_ & Hb' & _); congruence. }
      assert (Hna : is_allocated o = false).
      { destruct (is_allocated o) eqn:Hal; [|done]. destruct (fr_entry _ _ _ If _ _ _ Ho Hal) as [lk HE]. unfold entry_inv in HE.
        rewrite Hplain in HE. destruct HE as [? _]. congruence. }
      assert (Hs' : get_option (put_option a2 t i (with_value (with_set o true) v)) t i = Ok (with_value (with_set o true) v)) by (by eapply get_put_same).
      assert (Ho' : forall t' i', (t', i') <> (t, i) -> get_option (put_option a2 t i (with_value (with_set o true) v)) t' i' = get_option a2 t' i')
        by (intros; by apply get_put_other).
      split.
      - intros t' i' o' Hg. destruct (pair_dec t i t' i') as [[= -> ->]|Hd]; [|rewrite Ho' in Hg by done; by eapply (fr_fits _ _ _ If)].
        rewrite Hs' in Hg. injection Hg as <-. apply (fr_fits _ _ _ If _ _ _ Ho).
      - intros t' i' o' Hg Hal. destruct (pair_dec t i t' i') as [[= -> ->]|Hd]; [|rewrite Ho' in Hg by done; by apply (fr_entry _ _ _ If)].
        rewrite Hs' in Hg. injection Hg as <-. cbn in Hal. congruence.
      - intros t' i' l Hl. destruct (fr_in _ _ _ If _ _ _ Hl) as (o' & Hg & Hal).
        destruct (pair_dec t i t' i') as [[= -> ->]|Hd]; [congruence|]. rewrite Ho' by done. eauto.
      - apply (fr_disj _ _ _ If).
      - apply (fr_live _ _ _ If). }
    destruct If3 as (F3 & L3 & If3).
    destruct (argus_free_ok _ _ _ If3) as (a4 & F4 & -> & _ & Fr).
    { unfold stack_ok. rewrite E2, E7. exact S2. }
    { by rewrite E7, E1. }
    cbn [rbind]. pose proof (freed_released _ _ Fr) as Hrel. destruct Fr as (D & S & R & _).
    eexists _, _. split; [done|]. split; [congruence|]. right. split; [by intros [= ?]|].
    split_and!; [|by rewrite D, R, E7, E1|done]. unfold stack_ok. rewrite S, D, E2, E7. exact S2.
Qed.
End perform.
