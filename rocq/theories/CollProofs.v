(** * Contents of array and map options after a parse: proofs *)
From Coq Require Import Lia.
From stdpp Require Import sets.
From Verif Require Import Api LibProofs FrameProofs SpecGrammar GrammarProofs GrammarLemmas ActiveProofs SpecAfter EnvProofs AfterFacts
  AfterProofs CallProofs WholeProofs MoreFacts SpecStructure StructProofs SpecMemory SpecContents SpecSafe SpecCollections HeapProofs ListProofs ArrayProofs
  FlagProofs ArrayHandlers MapProofs MapHandlers MapFlags MapWhole FreeProofs SafeProofs SafeContext SafePerform OrderProofs.

(** ** Lists *)
Lemma firsts_kept {E} (same : E -> E -> bool) l : forall kept,
  (forall i x, l !! i = Some x -> existsb (same x) (kept ++ take i l) = false) -> firsts same kept l = l.
Proof.
  induction l as [|x l IH]; intros kept Hl; cbn [firsts]; [done|].
  pose proof (Hl 0%nat x eq_refl) as H0. cbn [take] in H0. rewrite app_nil_r in H0. rewrite H0. f_equal.
  apply IH. intros i y Hy. specialize (Hl (S i) y Hy). cbn [take] in Hl. by rewrite <- app_assoc.
Qed.
Lemma firsts_new {E} (same : E -> E -> bool) l : forall kept i x, firsts same kept l !! i = Some x ->
  existsb (same x) (kept ++ take i (firsts same kept l)) = false.
Proof.
  induction l as [|y l IH]; intros kept i x Hx; cbn [firsts] in *; [done|].
  destruct (existsb (same y) kept) eqn:Ey; [by apply IH|]. destruct i as [|i]; cbn [lookup list_lookup] in Hx.
  - injection Hx as ->. cbn [take]. by rewrite app_nil_r.
  - apply IH in Hx. cbn [take]. by rewrite <- app_assoc in Hx.
Qed.
Lemma firsts_app {E} (same : E -> E -> bool) l1 l2 : forall kept,
  firsts same kept (l1 ++ l2) = firsts same kept l1 ++ firsts same (kept ++ firsts same kept l1) l2.
Proof.
  induction l1 as [|y l1 IH]; intros kept; cbn [firsts app]; [by rewrite app_nil_r|].
  destruct (existsb (same y) kept) eqn:Ey; [by apply IH|]. rewrite IH. cbn [app]. by rewrite <- app_assoc.
Qed.
Lemma firsts_again {E} (same : E -> E -> bool) l1 l2 : firsts same [] (firsts same [] l1 ++ l2) = firsts same [] (l1 ++ l2).
Proof.
  rewrite !firsts_app. assert (firsts same [] (firsts same [] l1) = firsts same [] l1) as ->; [|done].
  apply firsts_kept. intros i x Hx. by apply firsts_new in Hx.
Qed.
Lemma firsts_sub {E} (same : E -> E -> bool) l : forall kept, firsts same kept l `sublist_of` l.
Proof.
  induction l as [|y l IH]; intros kept; cbn [firsts]; [done|]. destruct (existsb (same y) kept); by constructor.
Qed.
Lemma firsts_covers {E} (same : E -> E -> bool) l : forall kept x, x ∈ l -> (forall y, y ∈ l -> same y y = true) ->
  exists y, y ∈ kept ++ firsts same kept l /\ same x y = true.
Proof.
  induction l as [|z l IH]; intros kept x Hx Hr; [by apply elem_of_nil in Hx|]. cbn [firsts].
  assert (Hr' : forall y, y ∈ l -> same y y = true) by (intros; apply Hr; by right).
  destruct (existsb (same z) kept) eqn:Ez.
  - apply elem_of_cons in Hx as [->|Hx]; [|by apply IH]. apply existsb_exists in Ez as (y & Hy & E1).
    exists y. split; [|done]. apply elem_of_app. left. by apply elem_of_list_In.
  - apply elem_of_cons in Hx as [->|Hx].
    + exists z. split; [apply elem_of_app; right; left|]. apply Hr. left.
    + destruct (IH (kept ++ [z]) x Hx Hr') as (y & Hy & E1). exists y. split; [|done]. by rewrite <- app_assoc in Hy.
Qed.
Lemma sequence_sub {E} (P : E -> E -> Prop) l1 l2 : l1 `sublist_of` l2 -> in_sequence P l2 -> in_sequence P l1.
Proof.
  assert (Hcons : forall (x : E) l, in_sequence P (x :: l) <-> in_sequence P l /\ forall y, y ∈ l -> ~ P y x).
  { intros x l. split.
    - intros Hs. split; [intros i j a b Hij; apply (Hs (S i) (S j)); lia|]. intros y Hy. apply elem_of_list_lookup in Hy as [j Hj].
      apply (Hs 0%nat (S j) x y); [lia|done|done].
    - intros [Hs Hx] i j a b Hij Ha Hb. destruct j as [|j]; [lia|]. destruct i as [|i].
      + injection Ha as <-. apply Hx. by eapply elem_of_list_lookup_2.
      + apply (Hs i j); [lia|done|done]. }
  induction 1 as [|x l1 l2 Hsub IH|x l1 l2 Hsub IH]; intros Hs.
  - done.
  - apply Hcons in Hs as [Hs Hx]. apply Hcons. split; [by apply IH|]. intros y Hy. apply Hx. by eapply elem_of_submseteq, sublist_submseteq.
  - apply Hcons in Hs as [Hs _]. by apply IH.
Qed.

(** First appearances *)
Lemma appear_nil {X} : first_appearances ([] : list X) [].
Proof. split; [constructor|]. split; [done|]. intros i j x y _ Hx. done. Qed.
Lemma first_split {X} `{EqDecision X} (y : X) l : y ∈ l -> exists l1 l2, l = l1 ++ y :: l2 /\ y ∉ l1.
Proof.
  induction l as [|w l IH]; intros Hy; [by apply elem_of_nil in Hy|].
  destruct (decide (y = w)) as [->|Hne]; [exists [], l; split; [done|apply not_elem_of_nil]|].
  apply elem_of_cons in Hy as [?|Hy]; [done|]. destruct (IH Hy) as (l1 & l2 & -> & Hn). exists (w :: l1), l2. split; [done|].
  by apply not_elem_of_cons.
Qed.
Lemma appear_step {X} `{EqDecision X} (l r : list X) x : first_appearances l r ->
  first_appearances (l ++ [x]) (if bool_decide (x ∈ r) then r else r ++ [x]).
Proof.
  intros (Hn & Hm & Ho). case_bool_decide as Hx.
  - split; [done|]. split.
    + intros y. rewrite elem_of_app, elem_of_list_singleton, Hm. split; [by left|]. intros [?| ->]; [done|by apply Hm].
    + intros i j y z Hij Hy Hz. destruct (Ho i j y z Hij Hy Hz) as (l1 & l2 & -> & ? & ?). exists l1, (l2 ++ [x]).
      by rewrite <- app_assoc.
  - split; [|split].
    + apply NoDup_app. split; [done|]. split; [|apply NoDup_singleton]. intros y Hy Hy'. apply elem_of_list_singleton in Hy' as ->. done.
    + intros y. by rewrite !elem_of_app, Hm.
    + intros i j y z Hij Hy Hz. rewrite lookup_app in Hz. destruct (r !! j) as [z'|] eqn:Ej.
      * injection Hz as ->. rewrite lookup_app_l in Hy; [|apply lookup_lt_Some in Ej; lia].
        destruct (Ho i j y z Hij Hy Ej) as (l1 & l2 & -> & ? & ?). exists l1, (l2 ++ [x]). by rewrite <- app_assoc.
      * apply lookup_ge_None in Ej. apply list_lookup_singleton_Some in Hz as [Hz <-].
        rewrite lookup_app_l in Hy by lia.
        assert (Hyl : y ∈ l) by (apply Hm; by eapply elem_of_list_lookup_2).
        destruct (first_split y l Hyl) as (l1 & l2 & -> & Hy1). exists l1, (l2 ++ [x]). rewrite <- app_assoc. split_and!; [done|done|].
        intros Hx1. apply Hx, Hm, elem_of_app. by left.
Qed.
Lemma appear_firsts {X} `{EqDecision X} (same : X -> X -> bool) l : (forall x y, x ∈ l -> y ∈ l -> same x y = true <-> x = y) ->
  first_appearances l (firsts same [] l).
Proof.
  induction l as [|x l IH] using rev_ind; intros Hs; [apply appear_nil|].
  rewrite firsts_app. cbn [firsts app].
  assert (HA : first_appearances l (firsts same [] l)).
  { apply IH. intros y z Hy Hz. apply Hs; apply elem_of_app; by left. }
  pose proof (appear_step _ _ x HA) as Hst. pose proof HA as (_ & Hm & _).
  replace (existsb (same x) (firsts same [] l)) with (bool_decide (x ∈ firsts same [] l)).
  - case_bool_decide; [by rewrite app_nil_r|done].
  - apply eq_true_iff_eq. rewrite bool_decide_eq_true, existsb_exists. split.
    + intros Hx. exists x. split; [by apply elem_of_list_In|]. apply Hs; [apply elem_of_app; right; left|apply elem_of_app; right; left|done].
    + intros (y & Hy & Hxy). apply elem_of_list_In in Hy. apply Hs in Hxy as ->; [done|apply elem_of_app; right; left|].
      apply elem_of_app. left. by apply Hm.
Qed.

Global Instance width_eq_dec : EqDecision width.
Proof. solve_decision. Defined.
Global Instance elem_eq_dec : EqDecision elem.
Proof. solve_decision. Defined.

(** ** Arrays *)
Section arrays.
Context `{Libc}.

Lemma filled_last d f b k vs v c : d_handler d = Some f -> array_handler f = Some (b, k) -> array_filled d (vs ++ [v]) c ->
  exists c0 es, array_filled d vs c0 /\ yields f v es /\ flagged k (d_flags d) (c0 ++ es) c.
Proof.
  intros Hf Hk HF. remember (vs ++ [v]) as ws eqn:E. destruct HF as [|f' b' k' vs' v' c0 es c' HF Hf' Hk' Hy Hfl]; [by destruct vs|].
  apply app_inj_tail in E as [-> ->]. assert (f' = f) as -> by congruence. rewrite Hk in Hk'. injection Hk' as <- <-. eauto.
Qed.
Lemma filled_none d c : array_filled d [] c -> c = [].
Proof. intros HF. remember [] as ws eqn:E. destruct HF; [done|]. by destruct vs. Qed.

Lemma filled_spec d f b k vs : d_handler d = Some f -> array_handler f = Some (b, k) -> forall c, array_filled d vs c ->
  exists ess, Forall2 (yields f) vs ess /\
    (N.testbit (d_flags d) 9 = false -> N.testbit (d_flags d) 10 = false -> c = concat ess) /\
    (N.testbit (d_flags d) 9 = true -> in_sequence (precedes k) c) /\
    (N.testbit (d_flags d) 9 = true -> N.testbit (d_flags d) 10 = false -> Permutation (concat ess) c) /\
    (N.testbit (d_flags d) 9 = false -> N.testbit (d_flags d) 10 = true -> c = firsts (alike k) [] (concat ess)) /\
    (N.testbit (d_flags d) 10 = true -> forall i x, c !! i = Some x -> existsb (alike k x) (take i c) = false) /\
    (forall x, x ∈ c -> x ∈ concat ess) /\
    ((forall x y, of_kind k x -> of_kind k y -> alike k x y = true <-> x = y) -> forall x, x ∈ concat ess -> x ∈ c).
Proof.
  intros Hf Hk. induction vs as [|v vs IH] using rev_ind; intros c HF.
  { apply filled_none in HF as ->. exists []. cbn [concat]. split; [constructor|]. split_and!; try done.
    }
  destruct (filled_last _ _ _ _ _ _ _ Hf Hk HF) as (c0 & es & HF0 & Hy & c1 & Hs & ->). clear HF.
  destruct (IH c0 HF0) as (ess & HE & A1 & A2 & A3 & A4 & A5 & A6 & A7).
  assert (Hkind : Forall (of_kind k) (concat (ess ++ [es]))).
  { apply Forall_concat, Forall_forall. intros es' Hin. assert (exists v', yields f v' es') as (v' & ws & ess' & _ & Hp & ->).
    { apply elem_of_app in Hin as [Hin|Hin]; [|apply elem_of_list_singleton in Hin as ->; eauto].
      apply elem_of_list_lookup in Hin as [j Hj]. destruct (Forall2_lookup_r _ _ _ _ _ HE Hj) as (v' & _ & ?). eauto. }
    apply Forall_concat. clear -Hp Hk. induction Hp; constructor; [|done]. by eapply piece_kind. }
  exists (ess ++ [es]). rewrite concat_app in *. cbn [concat] in *. rewrite app_nil_r in *. split; [by apply Forall2_app; [|repeat constructor]|].
  assert (Hc1 : forall x, x ∈ c1 <-> x ∈ c0 ++ es).
  { intros x. destruct (N.testbit (d_flags d) 9); [|by subst]. destruct Hs as [Hp _]. by rewrite Hp. }
  assert (Hsub : (if N.testbit (d_flags d) 10 then firsts (alike k) [] c1 else c1) `sublist_of` c1).
  { destruct (N.testbit (d_flags d) 10); [apply firsts_sub|done]. }
  split_and!.
  - intros H9 H10. rewrite H9 in Hs. rewrite H10. subst c1. by rewrite A1.
  - intros H9. rewrite H9 in Hs. eapply sequence_sub; [exact Hsub|apply Hs].
  - intros H9 H10. rewrite H9 in Hs. rewrite H10. destruct Hs as [Hp _]. by rewrite (A3 H9 H10).
  - intros H9 H10. rewrite H9 in Hs. rewrite H10. subst c1. rewrite (A4 H9 H10). apply firsts_again.
  - intros H10 i x. rewrite H10. intros Hx. by apply firsts_new in Hx.
  - intros x Hx. assert (Hx1 : x ∈ c1) by (eapply elem_of_submseteq; [exact Hx|by apply sublist_submseteq]).
    apply Hc1 in Hx1. apply elem_of_app in Hx1 as [?|?]; apply elem_of_app; auto.
  - intros Heq x Hx. assert (Hx1 : x ∈ c1) by (apply Hc1; apply elem_of_app in Hx as [?|?]; apply elem_of_app; auto).
    destruct (N.testbit (d_flags d) 10); [|done].
    assert (Hkd : forall y, y ∈ c1 -> of_kind k y).
    { intros y Hy1. rewrite Forall_forall in Hkind. apply Hkind. apply Hc1 in Hy1. apply elem_of_app in Hy1 as [?|?]; apply elem_of_app; auto. }
    destruct (firsts_covers (alike k) c1 [] x Hx1) as (y & Hy2 & Hxy); [intros y Hy1; apply Heq; auto|].
    apply Heq in Hxy as ->; [done|auto|]. apply Hkd. eapply elem_of_submseteq; [exact Hy2|apply sublist_submseteq, firsts_sub].
Qed.

(** Elements of equal kind are alike only when equal, and ordered, for texts and ints. *)
Lemma int32_inj x y : 0 <= x < 2 ^ 32 -> 0 <= y < 2 ^ 32 -> to_int32 x = to_int32 y -> x = y.
Proof.
  unfold to_int32. change two32 with (2 ^ 32). intros Hx Hy. rewrite !Z.mod_small by done.
  destruct (Z.ltb_spec x 2147483648), (Z.ltb_spec y 2147483648); lia.
Qed.
Lemma alike_text_int k x y : k = EText \/ k = EInt -> of_kind k x -> of_kind k y -> alike k x y = true <-> x = y.
Proof.
  intros [-> | ->] Hx Hy; destruct x as [s|w z], y as [s'|w' z']; try done; cbn in *.
  - rewrite bool_decide_eq_true. split; [by intros ->|by intros [= ->]].
  - destruct w, w'; try done. rewrite Z.eqb_eq. split; [|by intros [= ->]]. intros E. f_equal. by apply int32_inj.
Qed.
Lemma ordered_text_int k x y : k = EText \/ k = EInt -> of_kind k x -> of_kind k y -> x <> y -> ~ precedes k y x -> precedes k x y.
Proof.
  intros [-> | ->] Hx Hy; destruct x as [s|w z], y as [s'|w' z']; try done; cbn in *.
  - intros Hne. rewrite <- !strcmp_before. rewrite (strcmp_anti s' s). intros Hnb.
    destruct (Z.eq_dec (strcmp s s') 0) as [E|E]; [apply strcmp_0 in E as ->; done|lia].
  - destruct w, w'; try done. intros Hne Hnb. destruct (Z.eq_dec (to_int32 z) (to_int32 z')) as [E|E]; [|lia].
    apply int32_inj in E as ->; done.
Qed.
Lemma filled_kind d f b k vs c : d_handler d = Some f -> array_handler f = Some (b, k) -> array_filled d vs c -> Forall (of_kind k) c.
Proof.
  intros Hf Hk HF. destruct (filled_spec d f b k vs Hf Hk c HF) as (ess & HE & _ & _ & _ & _ & _ & Hin & _).
  apply Forall_forall. intros x Hx. apply Hin in Hx. apply elem_of_list_In, in_concat in Hx as (es & Hes & Hx).
  apply elem_of_list_In in Hes, Hx. apply elem_of_list_lookup in Hes as [j Hj].
  destruct (Forall2_lookup_r _ _ _ _ _ HE Hj) as (v & _ & ws & ess' & _ & Hp & ->).
  apply elem_of_list_In, in_concat in Hx as (es' & Hes' & Hx). apply elem_of_list_In in Hes', Hx.
  apply elem_of_list_lookup in Hes' as [j' Hj']. destruct (Forall2_lookup_r _ _ _ _ _ Hp Hj') as (w & _ & Hw).
  pose proof (piece_kind _ _ _ _ _ Hk Hw) as Hall. rewrite Forall_forall in Hall. by apply Hall.
Qed.

(** ** Reading *)
Lemma array_read a p t i o c fp : find_option_by_active_path a p = Ok (Some (t, i)) -> get_option a t i = Ok o -> a_err a = 0 ->
  has (d_vtype (decl_of o)) (N.lor VT_ARRAY VT_VARIADIC) = true -> array_of o (a_heap a) c fp -> array_reads a p c.
Proof.
  intros Hp Ho He Hv [Hc HA]. assert (Ha0 : set_err a 0 = a) by (by apply set_err_same).
  assert (Hl : lookup_option a p = Ok (Some o)) by (unfold lookup_option; rewrite Hp; cbn [rbind]; by rewrite Ho).
  split; [unfold argus_count; rewrite Hl; cbn [rbind]; by rewrite Hc|].
  split.
  - intros j e Hj. destruct HA as [(_ & -> & _)|(q & cells & Hq & Hb & Hlen & Hpos & Hle & HF & _)]; [done|].
    destruct (Forall2_lookup_r _ _ _ _ _ HF Hj) as (x & Hx & Hxe). rewrite lookup_take_Some in Hx. destruct Hx as [Hx Hlt].
    exists x. split; [|done]. unfold argus_array_get. rewrite Ha0, Hl. cbn [rbind]. rewrite Hv. cbn [negb].
    destruct (Nat.leb_spec (value_count o) j) as [|_]; [lia|]. rewrite Hq. unfold deref_arr, deref. rewrite Hb. cbn [rbind].
    unfold cell. by rewrite Hx.
  - intros j Hj. unfold argus_array_get. rewrite Ha0, Hl. cbn [rbind]. rewrite Hv. cbn [negb].
    destruct (Nat.leb_spec (value_count o) j) as [_|]; [done|lia].
Qed.
Lemma map_read_loop h p key cells : blocks h !! p = Some (Some (BMap cells)) -> forall n i c,
  Forall2 (holds_pair h) (take n (drop i cells)) c -> length c = n ->
  match list_find (fun q => fst q = key) c with
  | Some (_, q) => exists x, map_get_loop h (PHeap p) key i n = Ok (Some x) /\ holds h x (snd q)
  | None => map_get_loop h (PHeap p) key i n = Ok None
  end.
Proof.
  intros Hb. induction n as [|n IH]; intros i c HF Hlen; destruct c as [|[k e] c]; try done.
  destruct (drop i cells) as [|kv rest] eqn:Ed; [by inversion HF|]. cbn [take] in HF. apply Forall2_cons in HF as [[Hk He] HF].
  assert (Hi : cells !! i = Some kv) by (rewrite <- (Nat.add_0_r i), <- lookup_drop, Ed; done).
  assert (Hd : drop (S i) cells = rest).
  { replace (S i) with (i + 1)%nat by lia. rewrite <- drop_drop, Ed. done. }
  cbn [map_get_loop]. unfold deref_map, deref. rewrite Hb. cbn [rbind]. unfold cell. rewrite Hi. cbn [rbind].
  cbn [fst snd] in Hk, He. destruct Hk as (l & El & Hl). rewrite El. unfold read_str, deref_str, deref. cbn [is_null rbind]. rewrite Hl. cbn [rbind]. rewrite strcmp_eqb.
  cbn [list_find fst]. destruct (decide (k = key)) as [->|Hne].
  - rewrite bool_decide_eq_true_2 by done. eauto.
  - rewrite bool_decide_eq_false_2 by done. specialize (IH (S i) c). rewrite Hd in IH. cbn in Hlen. specialize (IH HF ltac:(lia)).
    destruct (list_find _ c) as [[j q]|]; cbn; done.
Qed.
Lemma map_read a p t i o c fp : find_option_by_active_path a p = Ok (Some (t, i)) -> get_option a t i = Ok o -> a_err a = 0 ->
  has (d_vtype (decl_of o)) VT_MAP = true -> map_of o (a_heap a) c fp -> NoDup (map fst c) -> map_reads a p c.
Proof.
  intros Hp Ho He Hv [Hc HA] Hnd. assert (Ha0 : set_err a 0 = a) by (by apply set_err_same).
  assert (Hl : lookup_option a p = Ok (Some o)) by (unfold lookup_option; rewrite Hp; cbn [rbind]; by rewrite Ho).
  assert (Hloop : forall key, match list_find (fun q => fst q = key) c with
    | Some (_, q) => exists x, map_get_loop (a_heap a) (value o) key 0 (value_count o) = Ok (Some x) /\ holds (a_heap a) x (snd q)
    | None => map_get_loop (a_heap a) (value o) key 0 (value_count o) = Ok None
    end).
  { intros key. destruct HA as [(_ & -> & _)|(q & cells & Hq & Hb & Hlen & Hpos & Hle & HF & _)].
    - rewrite Hc. done.
    - rewrite Hq, Hc. by apply (map_read_loop (a_heap a) q key cells Hb (length c) 0 c). }
  split; [unfold argus_count; rewrite Hl; cbn [rbind]; by rewrite Hc|].
  split.
  - intros k e Hin. specialize (Hloop k). destruct (list_find (fun q => fst q = k) c) as [[j q]|] eqn:Ef.
    + apply list_find_Some in Ef as (Hj & Hk & _). destruct Hloop as (x & Ex & Hx). exists x.
      assert (q = (k, e)) as ->.
      { apply elem_of_list_lookup in Hin as [j' Hj']. assert (j = j') as ->; [|congruence].
        eapply NoDup_lookup; [exact Hnd| |]; rewrite list_lookup_fmap; [by rewrite Hj|by rewrite Hj', <- Hk]. }
      split; [|done]. unfold argus_map_get. rewrite Ha0, Hl. cbn [rbind]. rewrite Hv. cbn [negb]. rewrite Ex. done.
    + apply list_find_None in Ef. rewrite Forall_forall in Ef. by destruct (Ef (k, e) Hin).
  - intros k Hk. specialize (Hloop k). destruct (list_find (fun q => fst q = k) c) as [[j q]|] eqn:Ef.
    + apply list_find_Some in Ef as (Hj & <- & _). destruct Hk. apply elem_of_list_fmap. exists q. split; [done|]. by eapply elem_of_list_lookup_2.
    + unfold argus_map_get. rewrite Ha0, Hl. cbn [rbind]. rewrite Hv. cbn [negb]. rewrite Hloop. done.
Qed.

(** Value types of list options. *)
Lemma array_kind_has vt k : array_kind vt = Some k -> has vt (N.lor VT_ARRAY VT_VARIADIC) = true.
Proof.
  unfold array_kind. destruct (N.eqb_spec vt VT_ARRAY_INT) as [->|_]; [done|]. destruct (N.eqb_spec vt VT_VARIADIC_INT) as [->|_]; [done|].
  destruct (N.eqb_spec vt VT_ARRAY_STRING) as [->|_]; [done|]. destruct (N.eqb_spec vt VT_VARIADIC_STRING) as [->|_]; [done|]. cbn [orb].
  destruct (N.eqb_spec vt VT_ARRAY_FLOAT) as [->|_]; [done|]. by destruct (N.eqb_spec vt VT_VARIADIC_FLOAT) as [->|_].
Qed.
Lemma map_kind_has vt k : map_kind vt = Some k -> has vt VT_MAP = true.
Proof.
  unfold map_kind. destruct (N.eqb_spec vt VT_MAP_INT) as [->|_]; [done|]. destruct (N.eqb_spec vt VT_MAP_STRING) as [->|_]; [done|].
  destruct (N.eqb_spec vt VT_MAP_FLOAT) as [->|_]; [done|]. by destruct (N.eqb_spec vt VT_MAP_BOOL) as [->|_].
Qed.

(** ** After the parse *)
Lemma assigned_unique a argv its1 its2 : assigned a argv its1 -> assigned a argv its2 -> its1 = its2.
Proof.
  intros (i1 & a1 & R1 & P1 & ->) (i2 & a2 & R2 & P2 & ->). pose proof (reads_unique _ _ _ _ _ _ _ R1 R2) as ->. congruence.
Qed.
Lemma parsed_holds a argv its a' : parsed a argv its a' ->
  decls a' = decls a /\ a_err a' = 0 /\ holding a' its.
Proof.
  intros [P1 P2 P3 P4 P5 P6 P7]. destruct (parse_safe a argv P1 P2 P3 P4 P5) as (o & a2 & E & D & Hor).
  rewrite P6 in E. injection E as <- <-. destruct Hor as [(_ & its' & Has & _ & HH)|[Hne _]]; [|done].
  pose proof (assigned_unique _ _ _ _ P7 Has) as ->. split; [done|]. split; [|done].
  by eapply success_err; [apply accepted_ready|].
Qed.
Lemma shown_entry a argv its a' p t i d f : parsed a argv its a' -> shows a a' p t i d f ->
  exists o fp lk, get_option a' t i = Ok o /\ decl_of o = d /\ fits d /\ d_handler d = Some f /\
    entry_inv true (a_heap a') o (texts t i its) fp lk.
Proof.
  intros HP (Hp & o0 & Ho0 & Hd & Hf). destruct (parsed_holds _ _ _ _ HP) as (D & He & Hs & HR & F & K & I).
  destruct (entry_decls _ _ _ _ Ho0) as (T & HT & Hi). rewrite <- D in HT. destruct (decls_entry _ _ _ _ _ HT Hi) as (o & Ho & Hdo).
  apply entry_get in Ho. exists o, (F t i), (K t i). split; [done|]. split; [congruence|]. split_and!; [|done|by apply (iv_entry _ _ _ _ _ I)].
  rewrite <- Hd, <- Hdo. by apply (iv_fits _ _ _ _ _ I t i).
Qed.
Lemma array_shown a argv its a' p t i d f b k : parsed a argv its a' -> shows a a' p t i d f -> array_handler f = Some (b, k) ->
  exists o c fp, get_option a' t i = Ok o /\ decl_of o = d /\ array_of o (a_heap a') c fp /\ array_filled d (texts t i its) c /\ array_reads a' p c.
Proof.
  intros HP HS Hk. destruct (shown_entry _ _ _ _ _ _ _ _ _ HP HS) as (o & fp & lk & Ho & Hd & Hfit & Hf & HE).
  assert (Hsh : shape_of d = Listed k) by (apply shape_listed; eauto).
  pose proof (ft_shape _ Hfit) as Hft. rewrite Hsh in Hft. unfold entry_inv in HE. rewrite Hd, Hsh in HE.
  destruct HE as (c & HC & _ & _ & _ & Hcl). exists o, c, fp. split_and!; try done; [by apply Hcl|].
  destruct (parsed_holds _ _ _ _ HP) as (_ & He & _). eapply array_read; [apply HS|exact Ho|done| |exact HC]. rewrite Hd. by eapply array_kind_has, Hft.
Qed.
End arrays.
