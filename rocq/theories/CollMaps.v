(** * Contents of map options after a parse; iterators: proofs *)
From Coq Require Import Lia.
From stdpp Require Import sets.
From Verif Require Import Api LibProofs FrameProofs SpecGrammar GrammarProofs GrammarLemmas ActiveProofs SpecAfter EnvProofs AfterFacts
  AfterProofs CallProofs WholeProofs MoreFacts SpecStructure StructProofs SpecMemory SpecContents SpecSafe SpecCollections HeapProofs ListProofs ArrayProofs
  FlagProofs ArrayHandlers MapProofs MapHandlers MapFlags MapWhole FreeProofs SafeProofs SafeContext SafePerform OrderProofs CollProofs.

Section maps.
Context `{Libc}.
Notation pair := (cstr * elem)%type.

(** ** One pair after the other *)
Definition assign_all (ps : list pair) (c : list pair) : list pair := fold_left (fun c p => assign (fst p) (snd p) c) ps c.
Lemma adds_pairs f ws c c' n : adds f ws c c' n -> exists ps, Forall2 (pair_text f) ws ps /\ c' = assign_all ps c.
Proof.
  induction 1 as [c|w ws k v e c c' n Hw He _ (ps & HF & ->)]; [by exists []|].
  exists ((k, e) :: ps). split; [|done]. constructor; [|done]. exists v. done.
Qed.
Lemma assign_keys k e c : map fst (assign k e c) = if bool_decide (k ∈ map fst c) then map fst c else map fst c ++ [k].
Proof.
  induction c as [|[k' e'] c IH]; cbn [assign map fst]; [by rewrite bool_decide_eq_false_2 by apply not_elem_of_nil|].
  destruct (decide (k' = k)) as [->|Hk].
  - rewrite !bool_decide_eq_true_2 by (done || left). done.
  - rewrite (bool_decide_eq_false_2 (k' = k)) by done. cbn [map fst]. rewrite IH. destruct (decide (k ∈ map fst c)) as [Hin|Hni].
    + rewrite !bool_decide_eq_true_2; [done|by right|done].
    + rewrite !bool_decide_eq_false_2; [done|apply not_elem_of_cons; split; congruence|done].
Qed.
Lemma assign_elem k e c k' e' : NoDup (map fst c) -> (k', e') ∈ assign k e c <-> (k' = k /\ e' = e) \/ (k' <> k /\ (k', e') ∈ c).
Proof.
  induction c as [|[k1 e1] c IH]; cbn [assign map fst]; intros Hnd.
  - rewrite elem_of_list_singleton. split; [intros [= -> ->]; by left|]. intros [[-> ->]|[_ []%elem_of_nil]]. done.
  - apply NoDup_cons in Hnd as [Hni Hnd]. case_bool_decide as Hk.
    + subst k1. rewrite elem_of_cons. split.
      * intros [[= -> ->]|Hin]; [by left|]. right. split; [|by right]. intros ->. destruct Hni. apply elem_of_list_fmap. by exists (k, e').
      * intros [[-> ->]|[Hne [[= -> ->]|Hin]%elem_of_cons]]; [by left|done|by right].
    + rewrite elem_of_cons, IH by done. rewrite elem_of_cons. split.
      * intros [[= -> ->]|[?|[? ?]]]; [right; split; [done|by left]|by left|right; split; [done|by right]].
      * intros [?|[? [?|?]]]; [right; by left|by left|right; right; done].
Qed.

(** [represents c ps]: [c] has each key of [ps] once, with its last value. *)
Definition represents (c ps : list pair) : Prop :=
  NoDup (map fst c) /\ forall k e, (k, e) ∈ c <-> last_value k ps = Some e.
Lemma last_value_snoc k ps p : last_value k (ps ++ [p]) = if bool_decide (fst p = k) then Some (snd p) else last_value k ps.
Proof.
  unfold last_value. rewrite omap_app. cbn [omap list_omap]. case_bool_decide; [by rewrite last_snoc|by rewrite app_nil_r].
Qed.
Lemma represents_step c ps k e : represents c ps -> represents (assign k e c) (ps ++ [(k, e)]).
Proof.
  intros [Hnd Hl]. split.
  - rewrite assign_keys. case_bool_decide as Hk; [done|]. apply NoDup_app. split; [done|]. split; [|apply NoDup_singleton].
    intros x Hx Hx'. apply elem_of_list_singleton in Hx' as ->. done.
  - intros k' e'. rewrite assign_elem by done. rewrite last_value_snoc. cbn [fst snd]. case_bool_decide as Hk.
    + subst. split; [|intros [= ->]; by left]. intros [[_ ->]|[? _]]; done.
    + rewrite Hl. split; [|intros ?; right; split; [congruence|done]]. intros [[-> _]|[_ ?]]; done.
Qed.
Lemma represents_all qs : forall c ps, represents c ps -> represents (assign_all qs c) (ps ++ qs).
Proof.
  induction qs as [|[k e] qs IH]; intros c ps Hr; cbn [assign_all fold_left]; [by rewrite app_nil_r|].
  replace (ps ++ (k, e) :: qs) with ((ps ++ [(k, e)]) ++ qs) by (by rewrite <- app_assoc). apply IH. by apply represents_step.
Qed.
Lemma represents_perm c c' ps : Permutation c c' -> represents c ps -> represents c' ps.
Proof.
  intros Hp [Hnd Hl]. split; [by rewrite <- Hp|]. intros k e. by rewrite <- Hp.
Qed.
Lemma represents_nil : represents [] [].
Proof. split; [constructor|]. intros k e. split; [intros []%elem_of_nil|done]. Qed.
Lemma appear_all qs : forall c ps, first_appearances (map fst ps) (map fst c) ->
  first_appearances (map fst (ps ++ qs)) (map fst (assign_all qs c)).
Proof.
  induction qs as [|[k e] qs IH]; intros c ps Hr; cbn [assign_all fold_left]; [by rewrite app_nil_r|].
  replace (ps ++ (k, e) :: qs) with ((ps ++ [(k, e)]) ++ qs) by (by rewrite <- app_assoc). apply IH.
  cbn [fst snd]. rewrite assign_keys, map_app. by apply appear_step.
Qed.
(** With pairs dropped: keys once, and only pairs that were given. *)
Definition within (c ps : list pair) : Prop := NoDup (map fst c) /\ forall p, p ∈ c -> p ∈ ps.
Lemma within_all qs : forall c ps, within c ps -> within (assign_all qs c) (ps ++ qs).
Proof.
  induction qs as [|[k e] qs IH]; intros c ps [Hnd Hin]; cbn [assign_all fold_left]; [by rewrite app_nil_r|].
  replace (ps ++ (k, e) :: qs) with ((ps ++ [(k, e)]) ++ qs) by (by rewrite <- app_assoc). apply IH. cbn [fst snd]. split.
  - rewrite assign_keys. case_bool_decide as Hk; [done|]. apply NoDup_app. split; [done|]. split; [|apply NoDup_singleton].
    intros x Hx Hx'. apply elem_of_list_singleton in Hx' as ->. done.
  - intros [k' e'] Hp. apply assign_elem in Hp as [[-> ->]|[_ Hp]]; [| |done]; apply elem_of_app; [right; left|left; auto].
Qed.
Lemma within_sub c c' ps : c' `sublist_of` c -> within c ps -> within c' ps.
Proof.
  intros Hs [Hnd Hin]. split.
  - clear Hin. revert Hnd. induction Hs as [|x l1 l2 Hsub IH|x l1 l2 Hsub IH]; cbn [map]; [done|..]; rewrite NoDup_cons.
    + intros [Hni Hnd]. apply NoDup_cons. split; [|by apply IH]. intros Hx. apply Hni. apply elem_of_list_fmap in Hx as (y & -> & Hy).
      apply elem_of_list_fmap. exists y. split; [done|]. eapply elem_of_submseteq; [exact Hy|by apply sublist_submseteq].
    + intros [_ Hnd]. by apply IH.
  - intros p Hp. apply Hin. eapply elem_of_submseteq; [exact Hp|by apply sublist_submseteq].
Qed.
Lemma within_perm c c' ps : Permutation c c' -> within c ps -> within c' ps.
Proof. intros Hp [Hnd Hin]. split; [by rewrite <- Hp|]. intros p. rewrite <- Hp. auto. Qed.

(** ** All texts *)
Lemma mfilled_last d f k vs v c n : d_handler d = Some f -> map_handler f = Some k -> map_filled d (vs ++ [v]) c n ->
  exists c0 m c1 n1, map_filled d vs c0 m /\ map_yields f v c0 c1 n1 /\ map_flagged k (d_flags d) c1 c /\ n = (m + n1)%nat.
Proof.
  intros Hf Hk HF. remember (vs ++ [v]) as ws eqn:E. destruct HF as [|f' k' vs' v' c0 m c1 n1 c' HF Hf' Hk' Hy Hfl]; [by destruct vs|].
  apply app_inj_tail in E as [-> ->]. assert (f' = f) as -> by congruence. rewrite Hk in Hk'. injection Hk' as <-. eauto 10.
Qed.
Lemma mfilled_none d c n : map_filled d [] c n -> c = [] /\ n = 0%nat.
Proof. intros HF. remember [] as ws eqn:E. destruct HF; [done|]. by destruct vs. Qed.

Lemma alike_sym k x y : k <> EFloat -> alike k x y = alike k y x.
Proof.
  destruct k; intros Hk; cbn; try done; try apply Z.eqb_sym. apply bool_decide_ext. split; congruence.
Qed.
Lemma alike_refl k x : k <> EFloat -> alike k x x = true.
Proof. destruct k; intros Hk; cbn; try done; try apply Z.eqb_refl. by apply bool_decide_eq_true. Qed.
Lemma NoDup_values k (c : list pair) : k <> EFloat ->
  (forall i x, c !! i = Some x -> existsb (fun q => alike k (snd q) (snd x)) (take i c) = false) -> NoDup (map snd c).
Proof.
  intros Hk Hall. apply NoDup_alt. intros i j e Hi Hj.
  assert (forall i j e, (i < j)%nat -> map snd c !! i = Some e -> map snd c !! j = Some e -> False) as Hlt.
  { clear i j e Hi Hj. intros i j e Hij Hi Hj. rewrite list_lookup_fmap in Hi, Hj.
    destruct (c !! i) as [p|] eqn:Ei; [|done]. destruct (c !! j) as [q|] eqn:Ej; [|done]. injection Hi as <-. injection Hj as Hj.
    pose proof (Hall j q Ej) as Hf. rewrite <- not_true_iff_false in Hf. apply Hf. apply existsb_exists. exists p. split.
    - apply elem_of_list_In. eapply elem_of_list_lookup_2. rewrite lookup_take by done. exact Ei.
    - rewrite Hj. by apply alike_refl. }
  destruct (Nat.lt_trichotomy i j) as [?|[?|?]]; [exfalso; eauto|done|exfalso; eauto].
Qed.

Lemma mfilled_spec d f k vs : d_handler d = Some f -> map_handler f = Some k -> forall c n, map_filled d vs c n ->
  exists pss, Forall2 (pairs_text f) vs pss /\ within c (concat pss) /\
    (N.testbit (d_flags d) 13 = false -> represents c (concat pss)) /\
    (N.testbit (d_flags d) 13 = false -> N.testbit (d_flags d) 12 = false -> N.testbit (d_flags d) 11 = false ->
       first_appearances (map fst (concat pss)) (map fst c)) /\
    (N.testbit (d_flags d) 12 = true -> in_sequence text_before (map fst c)) /\
    (N.testbit (d_flags d) 12 = false -> N.testbit (d_flags d) 11 = true -> in_sequence (precedes k) (map snd c)) /\
    (N.testbit (d_flags d) 13 = true -> k <> EFloat -> NoDup (map snd c)).
Proof.
  intros Hf Hk. induction vs as [|v vs IH] using rev_ind; intros c n HF.
  { apply mfilled_none in HF as [-> ->]. exists []. cbn [concat]. split; [constructor|]. split; [split; [constructor|intros p []%elem_of_nil]|].
    split; [intros _; apply represents_nil|]. split; [intros; apply appear_nil|]. split; [intros _ i j x y _ ?; done|].
    split; [intros _ _ i j x y _ ?; done|]. intros _ _. constructor. }
  destruct (mfilled_last _ _ _ _ _ _ _ Hf Hk HF) as (c0 & m & c1 & n1 & HF0 & (ws & Hel & Had) & Hfl & ->). clear HF.
  destruct (IH c0 m HF0) as (pss & HE & A1 & A2 & A3 & _).
  destruct (adds_pairs _ _ _ _ _ Had) as (qs & HQ & ->).
  exists (pss ++ [qs]). rewrite concat_app. cbn [concat]. rewrite app_nil_r. split.
  { apply Forall2_app; [done|]. repeat constructor. exists ws. done. }
  set (u := if N.testbit (d_flags d) 13 then firsts (fun p q : pair => alike k (snd q) (snd p)) [] (assign_all qs c0) else assign_all qs c0).
  assert (Hu : within u (concat pss ++ qs)).
  { eapply within_sub; [|by apply within_all, A1]. unfold u. destruct (N.testbit (d_flags d) 13); [apply firsts_sub|done]. }
  assert (Hp : Permutation u c /\ (N.testbit (d_flags d) 12 = false -> N.testbit (d_flags d) 11 = false -> c = u)).
  { unfold map_flagged in Hfl. cbv zeta in Hfl. fold u in Hfl. destruct (N.testbit (d_flags d) 12); [split; [apply Hfl|done]|].
    destruct (N.testbit (d_flags d) 11); [split; [apply Hfl|done]|]. subst. done. }
  destruct Hp as [Hp Hpe].
  assert (Hseq : forall X (g : pair -> X) (P : X -> X -> Prop), in_sequence (fun p q => P (g p) (g q)) c -> in_sequence P (map g c)).
  { intros X g P Hs i j x y Hij Hx Hy. rewrite list_lookup_fmap in Hx, Hy.
    destruct (c !! i) as [p|] eqn:Ei; [|done]. destruct (c !! j) as [q|] eqn:Ej; [|done]. injection Hx as <-. injection Hy as <-. by eapply Hs. }
  split; [by eapply within_perm|]. split; [|split; [|split; [|split]]].
  - intros H13. eapply represents_perm; [exact Hp|]. unfold u. rewrite H13. by apply represents_all, A2.
  - intros H13 H12 H11. rewrite (Hpe H12 H11). unfold u. rewrite H13. by apply appear_all, A3.
  - intros H12. apply Hseq. unfold map_flagged in Hfl. cbv zeta in Hfl. rewrite H12 in Hfl. apply Hfl.
  - intros H12 H11. apply Hseq. unfold map_flagged in Hfl. cbv zeta in Hfl. rewrite H12, H11 in Hfl. apply Hfl.
  - intros H13 Hnf. assert (HN : NoDup (map snd u)); [|by rewrite Hp in HN].
    apply (NoDup_values k); [done|]. intros i x Hx. unfold u in *. rewrite H13 in *. by apply firsts_new in Hx.
Qed.

Lemma map_shown a argv its a' p t i d f k : parsed a argv its a' -> shows a a' p t i d f -> map_handler f = Some k ->
  exists o c n fp, get_option a' t i = Ok o /\ decl_of o = d /\ map_of o (a_heap a') c fp /\ map_filled d (texts t i its) c n /\ map_reads a' p c.
Proof.
  intros HP HS Hk. destruct (shown_entry _ _ _ _ _ _ _ _ _ HP HS) as (o & fp & lk & Ho & Hd & Hfit & Hf & HE).
  assert (Hsh : shape_of d = Mapped k) by (apply shape_mapped; eauto).
  pose proof (ft_shape _ Hfit) as Hft. rewrite Hsh in Hft. unfold entry_inv in HE. rewrite Hd, Hsh in HE.
  destruct HE as (c & HC & _ & _ & Hcl). destruct (Hcl eq_refl) as [Hfill _]. exists o, c, (length lk), fp. split_and!; try done.
  destruct (parsed_holds _ _ _ _ HP) as (_ & He & _). eapply map_read; [apply HS|exact Ho|done| |exact HC|].
  - rewrite Hd. by eapply map_kind_has, Hft.
  - destruct (mfilled_spec d f k _ Hf Hk _ _ Hfill) as (pss & _ & [Hnd _] & _). done.
Qed.

(** ** Iterators *)
Lemma array_next_at h p cells n j e x : blocks h !! p = Some (Some (BArr cells)) -> cells !! j = Some x -> (j < n)%nat ->
  argus_array_next h (Some (ArrayIt (PHeap p) n j e)) = Ok (true, Some (ArrayIt (PHeap p) n (S j) x)).
Proof.
  intros Hb Hx Hj. cbn [argus_array_next it_count it_pos it_base]. destruct (Nat.leb_spec n j) as [|_]; [lia|].
  unfold deref_arr, deref. rewrite Hb. cbn [rbind]. unfold cell. by rewrite Hx.
Qed.
Lemma array_visit h p cells n : blocks h !! p = Some (Some (BArr cells)) -> (n <= length cells)%nat ->
  forall m j e, (j + m = n)%nat -> exists e', array_visits h (Some (ArrayIt (PHeap p) n j e)) (take m (drop j cells)) (Some (ArrayIt (PHeap p) n n e')).
Proof.
  intros Hb Hn. induction m as [|m IH]; intros j e Hj.
  - assert (j = n) as -> by lia. exists e. constructor.
  - destruct (lookup_lt_is_Some_2 cells j) as [x Hx]; [lia|]. destruct (IH (S j) x) as [e' He']; [lia|].
    exists e'. rewrite (drop_S _ _ _ Hx). cbn [take].
    apply (av_next h _ (ArrayIt (PHeap p) n (S j) x)); [|done]. eapply array_next_at; [done|done|lia].
Qed.
Lemma array_stop h b n e : argus_array_next h (Some (ArrayIt b n n e)) = Ok (false, Some (ArrayIt b n n e)).
Proof. cbn [argus_array_next it_count it_pos it_base]. by rewrite Nat.leb_refl. Qed.
Lemma array_visits_same h it xs it' : array_visits h it xs it' ->
  forall i0, it = Some i0 -> exists i1, it' = Some i1 /\ it_base i1 = it_base i0 /\ it_count i1 = it_count i0.
Proof.
  induction 1 as [it|it it1 xs it' Hn _ IH]; intros i0 ->; [eauto|].
  destruct (IH it1 eq_refl) as (i1 & -> & E1 & E2). exists i1. split; [done|].
  cbn [argus_array_next] in Hn. destruct (_ <=? _)%nat; [done|]. apply rbind_Ok in Hn as (cs & _ & Hn). apply rbind_Ok in Hn as (x & _ & Hn).
  injection Hn as <-. done.
Qed.

Lemma array_iterates a p t i o c fp : find_option_by_active_path a p = Ok (Some (t, i)) -> get_option a t i = Ok o ->
  has (d_vtype (decl_of o)) (N.lor VT_ARRAY VT_VARIADIC) = true -> array_of o (a_heap a) c fp ->
  exists it xs, argus_array_it a p = Ok it /\ Forall2 (holds (a_heap a)) xs c /\
    forall ys it1, array_visits (a_heap a) (Some it) ys it1 -> exists it2,
      array_visits (a_heap a) (argus_array_reset it1) xs it2 /\ argus_array_next (a_heap a) it2 = Ok (false, it2).
Proof.
  intros Hp Ho Hv [Hc HA]. unfold argus_array_it, lookup_option. rewrite Hp. cbn [rbind]. rewrite Ho. cbn [rbind]. rewrite Hv.
  eexists. destruct HA as [(Hq & -> & _)|(q & cells & Hq & Hb & Hlen & Hpos & Hle & HF & _)].
  - exists []. split; [done|]. split; [constructor|]. intros ys it1 Hvis. destruct (array_visits_same _ _ _ _ Hvis _ eq_refl) as (i1 & -> & E1 & E2).
    cbn [it_base it_count] in *. cbn [argus_array_reset]. rewrite E1, E2, Hc. eexists. split; [constructor|]. apply array_stop.
  - exists (take (length c) cells). split; [done|]. split; [done|]. intros ys it1 Hvis.
    destruct (array_visits_same _ _ _ _ Hvis _ eq_refl) as (i1 & -> & E1 & E2).
    cbn [it_base it_count] in *. cbn [argus_array_reset]. rewrite E1, E2, Hc, Hq.
    destruct (array_visit (a_heap a) q cells (length c) Hb Hle (length c) 0 (it_value i1) eq_refl) as [e' He'].
    eexists. split; [exact He'|]. apply array_stop.
Qed.

Lemma map_visit h p cells n : blocks h !! p = Some (Some (BMap cells)) -> (n <= length cells)%nat ->
  forall m j e f, (j + m = n)%nat -> exists e' f', map_visits h (Some (MapIt (PHeap p) n j e f)) (take m (drop j cells)) (Some (MapIt (PHeap p) n n e' f')).
Proof.
  intros Hb Hn. induction m as [|m IH]; intros j e f Hj.
  - assert (j = n) as -> by lia. exists e, f. constructor.
  - destruct (lookup_lt_is_Some_2 cells j) as [[x y] Hx]; [lia|]. destruct (IH (S j) x y) as (e' & f' & He'); [lia|].
    exists e', f'. rewrite (drop_S _ _ _ Hx). cbn [take].
    apply (mv_next h _ (MapIt (PHeap p) n (S j) x y)); [|done].
    cbn [argus_map_next mt_count mt_pos mt_base]. destruct (Nat.leb_spec n j) as [|_]; [lia|].
    unfold deref_map, deref. rewrite Hb. cbn [rbind]. unfold cell. by rewrite Hx.
Qed.
Lemma map_stop h b n e f : argus_map_next h (Some (MapIt b n n e f)) = Ok (false, Some (MapIt b n n e f)).
Proof. cbn [argus_map_next mt_count mt_pos mt_base]. by rewrite Nat.leb_refl. Qed.
Lemma map_visits_same h it xs it' : map_visits h it xs it' ->
  forall i0, it = Some i0 -> exists i1, it' = Some i1 /\ mt_base i1 = mt_base i0 /\ mt_count i1 = mt_count i0.
Proof.
  induction 1 as [it|it it1 xs it' Hn _ IH]; intros i0 ->; [eauto|].
  destruct (IH it1 eq_refl) as (i1 & -> & E1 & E2). exists i1. split; [done|].
  cbn [argus_map_next] in Hn. destruct (_ <=? _)%nat; [done|]. apply rbind_Ok in Hn as (cs & _ & Hn). apply rbind_Ok in Hn as (x & _ & Hn).
  injection Hn as <-. done.
Qed.
Lemma map_iterates a p t i o c fp : find_option_by_active_path a p = Ok (Some (t, i)) -> get_option a t i = Ok o ->
  has (d_vtype (decl_of o)) VT_MAP = true -> map_of o (a_heap a) c fp ->
  exists it xs, argus_map_it a p = Ok it /\ Forall2 (holds_pair (a_heap a)) xs c /\
    forall ys it1, map_visits (a_heap a) (Some it) ys it1 -> exists it2,
      map_visits (a_heap a) (argus_map_reset it1) xs it2 /\ argus_map_next (a_heap a) it2 = Ok (false, it2).
Proof.
  intros Hp Ho Hv [Hc HA]. unfold argus_map_it, lookup_option. rewrite Hp. cbn [rbind]. rewrite Ho. cbn [rbind]. rewrite Hv.
  eexists. destruct HA as [(Hq & -> & _)|(q & cells & Hq & Hb & Hlen & Hpos & Hle & HF & _)].
  - exists []. split; [done|]. split; [constructor|]. intros ys it1 Hvis. destruct (map_visits_same _ _ _ _ Hvis _ eq_refl) as (i1 & -> & E1 & E2).
    cbn [mt_base mt_count] in *. cbn [argus_map_reset]. rewrite E1, E2, Hc. eexists. split; [constructor|]. apply map_stop.
  - exists (take (length c) cells). split; [done|]. split; [done|]. intros ys it1 Hvis.
    destruct (map_visits_same _ _ _ _ Hvis _ eq_refl) as (i1 & -> & E1 & E2).
    cbn [mt_base mt_count] in *. cbn [argus_map_reset]. rewrite E1, E2, Hc, Hq.
    destruct (map_visit (a_heap a) q cells (length c) Hb Hle (length c) 0 (mt_key i1) (mt_value i1) eq_refl) as (e' & f' & He').
    eexists. split; [exact He'|]. apply map_stop.
Qed.
End maps.
