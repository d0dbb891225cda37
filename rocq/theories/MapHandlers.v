(** * The map handlers: one pair, lists of pairs *)
From Coq Require Import Lia.
From stdpp Require Import sets.
From Verif Require Import Api LibProofs FrameProofs SpecGrammar GrammarProofs SpecAfter SpecMemory SpecContents HeapProofs SplitProofs
  ListProofs OrderProofs ArrayProofs FlagProofs MapProofs.

(** Pairs whose value is of a kind. *)
Definition kpair (k : ekind) (h : heap) (x : uval * uval) (p : cstr * elem) : Prop := holds_pair h x p /\ of_kind k (snd p).
Definition pairs_of (k : ekind) (c : list (cstr * elem)) : Prop := Forall (fun p => of_kind k (snd p)) c.
Lemma kpair_ext k h h' x p : (forall l, l ∈ own_pair x -> bl h' !! l = bl h !! l) -> kpair k h x p -> kpair k h' x p.
Proof. intros Hl [H1 H2]. split; [|done]. by eapply holds_pair_ext. Qed.
Lemma kpair_live k h x p l : kpair k h x p -> l ∈ own_pair x -> exists s, bl h !! l = Some (Some (BStr s)).
Proof. intros [H1 H2]. by eapply holds_pair_live. Qed.
Lemma kpairs k h xs c : Forall2 (kpair k h) xs c <-> Forall2 (holds_pair h) xs c /\ pairs_of k c.
Proof.
  split.
  - induction 1 as [|x p xs c [H1 H2] HF [IH1 IH2]]; split; try constructor; done.
  - intros [HF HK]. induction HF as [|x p xs c H1 HF IH]; [constructor|]. apply Forall_cons in HK as [Hk HK].
    constructor; [by split|auto].
Qed.
Lemma coll_kind k o h c fp : collection BMap own_pair (kpair k) o h c fp <-> map_of o h c fp /\ pairs_of k c.
Proof.
  unfold map_of, collection. split.
  - intros (Hc & [(Hv & -> & ->)|(p & cells & ? & ? & ? & ? & ? & HF & ? & ?)]).
    + split; [|constructor]. split; [done|]. by left.
    + apply kpairs in HF as [HF HK]. split; [|done]. split; [done|]. right. by exists p, cells.
  - intros ((Hc & [(Hv & -> & ->)|(p & cells & ? & ? & ? & ? & ? & HF & ? & ?)]) & HK).
    + split; [done|]. by left.
    + split; [done|]. right. exists p, cells. do 5 (split; [done|]). split; [by apply kpairs|done].
Qed.
Notation kmap_at k := (at_state BMap own_pair (kpair k)).
Notation kmap_goes k := (goes BMap own_pair (kpair k)).
Lemma kmap_at_iff k D c fp s : kmap_at k D c fp s <-> map_at D c fp s /\ pairs_of k c.
Proof. unfold at_state. rewrite coll_kind. unfold map_of. tauto. Qed.
Lemma kmap_goes_iff k D fp s c fp' lk s' : kmap_goes k D fp s c fp' lk s' <-> map_goes D fp s c fp' lk s' /\ pairs_of k c.
Proof. unfold goes. rewrite kmap_at_iff. tauto. Qed.

(** What one pair does; [val] reads the value. *)
Definition map_post (val : cstr -> option elem) (c : list (cstr * elem)) (w : cstr) (st : Z) (c' : list (cstr * elem)) (lk : list nat) : Prop :=
  (exists k v e, w = k ++ "="%char :: v /\ "="%char ∉ k /\ val v = Some e /\ st = 0 /\ c' = assign k e c /\
     length lk = (if bool_decide (k ∈ map fst c) then 1%nat else O)) \/
  (st <> 0 /\ c' = c /\ ("="%char ∉ w \/ exists k v, w = k ++ "="%char :: v /\ "="%char ∉ k /\ val v = None)).

Section pairs.
Variable D : decl.

Lemma emitted {A E} (hd : heap -> A -> E -> Prop) e (blk : list A -> block) ow c fp s fp0 s0 lk : goes blk ow hd D fp0 s0 c fp lk s ->
  goes blk ow hd D fp0 s0 c fp lk (Hst (h_opt s) (h_heap s) (h_log s ++ [e])).
Proof. done. Qed.

(** Making the key block. *)
Lemma made c fp s b : map_at D c fp s ->
  let l := length (bl (h_heap s)) in
  let s1 := Hst (h_opt s) (add_block (h_heap s) b) (h_log s) in
  l ∉ fp /\ map_goes D fp s c fp [l] s1 /\ map_at D c fp s1.
Proof.
  intros (HC & Ho & HD) l s1. assert (Hl : l ∉ fp). { intros Hi. apply (map_lt _ _ _ _ _ HC) in Hi. unfold l in Hi. lia. }
  assert (HA1 : map_at D c fp s1).
  { split; [|done]. simpl. eapply map_moves; [apply moves_add| |exact HC]. intros l' _ []%elem_of_nil. }
  split; [done|]. split; [|done]. split; [done|]. split; [|split; [done|]].
  - simpl. eapply (moves_in fp); [apply moves_add|set_solver|clear; set_solver|].
    intros l' Hl'. split; [intros []%elem_of_nil|]. exact (map_lt _ _ _ _ _ HC Hl').
  - intros l' ->%elem_of_list_singleton. split; [done|]. unfold l, s1. cbn [h_heap]. rewrite add_len. lia.
Qed.

Lemma strchr_pair (w : cstr) n : strchr w equal_sign = Some n ->
  w = take n w ++ "="%char :: drop (S n) w /\ "="%char ∉ take n w.
Proof.
  intros Hs. apply LibProofs.strchr_Some in Hs as (u & v & -> & <- & Hn).
  rewrite take_app. replace (S (length u)) with (length u + 1)%nat by lia. rewrite <- drop_drop, drop_app. simpl. done.
Qed.

Lemma scalar_handles kind hint k (conv : cstr -> option uval) (val : cstr -> option elem) :
  k <> EText ->
  (forall v, match val v with
             | Some e => of_kind k e /\ exists x, conv v = Some x /\ forall h, holds h x e
             | None => conv v = None end) ->
  handles BMap own_pair (kpair k) D (set_kv_scalar kind hint conv) (map_post val) (fun _ => True).
Proof.
  intros Hk Hval s c fp w HA _. apply kmap_at_iff in HA as [HA HK]. unfold set_kv_scalar.
  destruct (strchr w equal_sign) as [n|] eqn:Hn.
  2:{ apply runs_bind, runs_emit, runs_ret. exists c, fp, []. split.
      - apply kmap_goes_iff. split; [|done]. apply (emitted holds_pair). by apply goes_refl.
      - right. split; [done|]. split; [done|]. left. by apply LibProofs.strchr_None. }
  apply strchr_pair in Hn as [Hw Hne]. set (key := take n w) in *. set (v := drop (S n) w) in *.
  apply runs_bind. destruct s as [o h lg]. pose proof HA as (_ & Ho & _). simpl in Ho.
  apply runs_malloc; [done|]. set (l := length (bl h)).
  destruct (made c fp (Hst o h lg) (BStr key) HA) as (Hl & G1 & HA1). simpl in Hl, G1, HA1. fold l in Hl, G1.
  set (s1 := Hst o (add_block h (BStr key)) lg) in *.
  specialize (Hval v). destruct (val v) as [e|] eqn:Ev.
  2:{ rewrite Hval. apply runs_bind, runs_emit, runs_ret. exists c, fp, [l]. split.
      - apply kmap_goes_iff. split; [|done]. by apply (emitted holds_pair).
      - right. split; [done|]. split; [done|]. right. by exists key, v. }
  destruct Hval as (Ke & x & Hx & Hxh). rewrite Hx.
  assert (Hox : own x = []). { eapply num_own; [exact Ke|done|apply (Hxh h)]. }
  assert (Hlk : bl (h_heap s1) !! l = Some (Some (BStr key))) by apply add_same.
  apply runs_bind. eapply runs_mono; [apply (find_key_runs D _ c fp); exact HA1|]. intros r s' [-> ->].
  destruct (position key c) as [i|] eqn:Hpos.
  - (* the key is known *)
    destruct (position_lookup _ _ _ Hpos) as [e0 He0].
    assert (Hin : key ∈ map fst c). { destruct (decide (key ∈ map fst c)) as [|Hni]; [done|]. apply position_None in Hni. congruence. }
    pose proof HA1 as ((Hc & HC) & _ & HD). unfold s1 in HC, HD. simpl in HC, HD.
    destruct HC as [(_ & -> & _)|(p & cells & Hv & Hp & Hlc & Hcap & Hlen & HF & Hfp & HN)]; [done|].
    assert (Hi : (i < length c)%nat) by (by eapply lookup_lt_Some).
    destruct (lookup_lt_is_Some_2 cells i) as [y Hy]; [lia|].
    unfold set_map_value. apply runs_bind, runs_bind, runs_get_opt. apply runs_bind. unfold s1. cbn [h_opt]. rewrite Hv.
    eapply runs_deref_map; [exact Hp|]. apply runs_bind. eapply runs_lift; [unfold cell; rewrite Hy; reflexivity|].
    unfold map_write. apply runs_bind. eapply runs_deref_map; [exact Hp|]. apply runs_bind.
    eapply runs_lift; [unfold set_cell; rewrite Hy; reflexivity|].
    eapply runs_store; [exact Hp|]. apply runs_ret.
    assert (Hyh : holds_pair (h_heap s1) y (key, e0)).
    { assert (Hyt : take (length c) cells !! i = Some y) by (by rewrite lookup_take).
      destruct (Forall2_lookup_l _ _ _ _ _ HF Hyt) as (z & Hz & Hhz). rewrite He0 in Hz. injection Hz as <-. exact Hhz. }
    assert (Hoy : own (snd y) = []).
    { eapply num_own; [|exact Hk|apply Hyh]. eapply (Forall_lookup_1 _ _ _ _ HK) in He0. exact He0. }
    destruct HA1 as (HC1 & Ho1 & HD1).
    destruct (map_replace o (h_heap s1) c fp p cells i y key e0 x e (h_heap s1)) as (fp' & HM' & _ & Hfp'); try done.
    { rewrite Hox. intros l' []%elem_of_nil. }
    assert (Heq : forall l', l' ∈ fp <-> l' ∈ fp').
    { intros l'. rewrite Hfp', Hoy, Hox. clear. set_solver. }
    exists (assign key e c), fp', [l]. split.
    + apply kmap_goes_iff. split.
      * rewrite assign_position, Hpos. split; [|split; [|split]].
        -- split; [exact HM'|]. done.
        -- simpl. apply moves_trans with (fp2 := fp ++ [l]) (h2 := h_heap s1).
           ++ destruct G1 as (_ & M1 & _). done.
           ++ assert (Hpfp : p ∈ fp) by (subst fp; left).
              eapply (moves_in (filter (fun l' => l' <> p) fp ++ [l])); [by eapply (moves_put (h_heap s1) p)| | |].
              ** intros l'. rewrite !elem_of_app, elem_of_list_filter, !elem_of_list_singleton. destruct (decide (l' = p)); naive_solver.
              ** intros l'. rewrite !elem_of_app, elem_of_list_filter, !elem_of_list_singleton, <- Heq. destruct (decide (l' = p)); naive_solver.
              ** intros l'. rewrite !elem_of_app, elem_of_list_filter, !elem_of_list_singleton. intros [[Hnp Hl']| -> ].
                 --- split; [done|]. exact (map_lt _ _ _ _ _ HC1 Hl').
                 --- split; [by intros ->|]. by eapply live_lt.
        -- done.
        -- intros l' ->%elem_of_list_singleton. split; [by rewrite <- Heq|]. unfold l. cbn [h_heap]. rewrite put_len. unfold s1. cbn [h_heap]. rewrite add_len. lia.
      * rewrite assign_position, Hpos. by apply Forall_insert.
    + left. exists key, v, e. do 5 (split; [done|]). by rewrite bool_decide_eq_true_2.
  - (* a new key *)
    assert (Hnin : key ∉ map fst c) by (by apply position_None).
    apply runs_bind. eapply runs_mono; [by apply map_adjust_goes|]. intros _ s2 (fp2 & G2 & Hroom & p & Hv).
    pose proof G2 as (HA2 & M2 & _). rewrite app_nil_r in M2.
    assert (Hl2 : l ∉ fp2). { eapply moves_disjoint; [exact M2|done|]. by eapply live_lt. }
    assert (Hlk2 : bl (h_heap s2) !! l = Some (Some (BStr key))) by (by eapply moves_other).
    apply runs_bind. assert (Hop : own_pair (PHeap l, x) = [l]) by (unfold own_pair; simpl; by rewrite Hox).
    eapply runs_mono; [apply (map_push_goes D (PHeap l) x (key, e) c fp2 s2 p); try done|].
    + split; simpl; [by exists l|apply Hxh].
    + rewrite Hop. by intros l' ->%elem_of_list_singleton.
    + rewrite Hop. apply NoDup_singleton.
    + rewrite Hop. intros u3 s3 G3. cbv beta in G3. apply runs_ret.
      destruct G3 as (HA3 & M3 & S3 & _). destruct G2 as (_ & _ & S2 & _). destruct G1 as (_ & M1 & S1 & _).
      rewrite app_nil_r in M3. simpl in M1.
      exists (assign key e c), (fp2 ++ [l]), []. split.
      * apply kmap_goes_iff. rewrite assign_position, Hpos. split; [split; [done|split; [|split]]|].
        -- rewrite app_nil_r. simpl. apply moves_trans with (fp2 := fp ++ [l]) (h2 := h_heap s1); [exact M1|].
           apply moves_trans with (fp2 := fp2 ++ [l]) (h2 := h_heap s2); [|exact M3].
           eapply (moves_in [l]); [exact M2|clear; set_solver|clear; set_solver|].
           intros l' ->%elem_of_list_singleton. split; [done|by eapply live_lt].
        -- destruct S1 as (?&?&?), S2 as (?&?&?), S3 as (?&?&?). simpl in *. repeat split; congruence.
        -- intros l' []%elem_of_nil.
        -- apply Forall_app. split; [done|]. by repeat constructor.
      * left. exists key, v, e. do 5 (split; [done|]). by rewrite bool_decide_eq_false_2.
Qed.

Lemma text_handles : handles BMap own_pair (kpair EText) D set_kv_string (map_post (fun v => Some (Text v))) (fun _ => True).
Proof.
  intros s c fp w HA _. apply kmap_at_iff in HA as [HA HK]. unfold set_kv_string.
  destruct (strchr w equal_sign) as [n|] eqn:Hn.
  2:{ apply runs_bind, runs_emit, runs_ret. exists c, fp, []. split.
      - apply kmap_goes_iff. split; [|done]. apply (emitted holds_pair). by apply goes_refl.
      - right. split; [done|]. split; [done|]. left. by apply LibProofs.strchr_None. }
  apply strchr_pair in Hn as [Hw Hne]. set (key := take n w) in *. set (v := drop (S n) w) in *.
  apply runs_bind. destruct s as [o h lg]. pose proof HA as (_ & Ho & _). simpl in Ho.
  apply runs_malloc; [done|]. set (l := length (bl h)).
  destruct (made c fp (Hst o h lg) (BStr key) HA) as (Hl & G1 & HA1). simpl in Hl, G1, HA1. fold l in Hl, G1.
  set (h1 := add_block h (BStr key)) in *.
  apply runs_bind. apply runs_malloc; [done|]. set (m := length (bl h1)).
  destruct (made c fp (Hst o h1 lg) (BStr v) HA1) as (Hm & G2 & HA2). simpl in Hm, G2, HA2. fold m in Hm, G2.
  set (h2 := add_block h1 (BStr v)) in *.
  assert (Hlm : l <> m). { unfold m, h1. rewrite add_len. unfold l. lia. }
  assert (Hlk : bl h2 !! l = Some (Some (BStr key))) by (apply add_live, add_same).
  assert (Hlv : bl h2 !! m = Some (Some (BStr v))) by apply add_same.
  assert (M12 : moves fp h (fp ++ [l; m]) h2).
  { destruct G1 as (_ & M1 & _). destruct G2 as (_ & M2 & _). simpl in M1, M2.
    apply moves_trans with (fp2 := fp ++ [l]) (h2 := h1); [done|].
    eapply (moves_in [l]); [exact M2|clear; set_solver|clear; set_solver|].
    intros l' ->%elem_of_list_singleton. split; [done|]. eapply live_lt. apply add_same. }
  set (s2 := Hst o h2 lg) in *.
  apply runs_bind. eapply runs_mono; [apply (find_key_runs D _ c fp); exact HA2|]. intros r s' [-> ->].
  destruct (position key c) as [i|] eqn:Hpos.
  - (* the key is known *)
    destruct (position_lookup _ _ _ Hpos) as [e0 He0].
    assert (Hin : key ∈ map fst c). { destruct (decide (key ∈ map fst c)) as [|Hni]; [done|]. apply position_None in Hni. congruence. }
    pose proof HA2 as ((Hc & HC) & _ & HD). unfold s2 in HC, HD. simpl in HC, HD.
    destruct HC as [(_ & -> & _)|(p & cells & Hv & Hp & Hlc & Hcap & Hlen & HF & Hfp & HN)]; [done|].
    assert (Hi : (i < length c)%nat) by (by eapply lookup_lt_Some).
    destruct (lookup_lt_is_Some_2 cells i) as [y Hy]; [lia|].
    assert (Hyt : take (length c) cells !! i = Some y) by (by rewrite lookup_take).
    assert (Hyh : holds_pair h2 y (key, e0)).
    { destruct (Forall2_lookup_l _ _ _ _ _ HF Hyt) as (z & Hz & Hhz). rewrite He0 in Hz. injection Hz as <-. exact Hhz. }
    assert (exists t, e0 = Text t) as [t ->].
    { eapply (Forall_lookup_1 _ _ _ _ HK) in He0. simpl in He0. destruct e0; [eauto|done]. }
    destruct Hyh as [_ (lo & Hlo & Hlob)]. simpl in Hlo, Hlob.
    assert (Hlofp : lo ∈ fp).
    { subst fp. right. apply elem_concat_map. exists y. split; [by eapply elem_of_list_lookup_2|].
      unfold own_pair. rewrite Hlo. simpl. clear. set_solver. }
    apply runs_bind, runs_get_opt. apply runs_bind. unfold s2. cbn [h_opt]. rewrite Hv.
    eapply runs_deref_map; [exact Hp|]. apply runs_bind. eapply runs_lift; [unfold cell; rewrite Hy; reflexivity|].
    apply runs_bind. rewrite Hlo. eapply runs_free; [exact Hlob|]. set (h3 := put_block h2 lo None).
    destruct HA2 as (HC2 & Ho2 & HD2).
    assert (Hlop : lo <> p). { intros ->. rewrite Hp in Hlob. done. }
    destruct (map_replace o h2 c fp p cells i y key (Text t) (PHeap m) (Text v) h3) as (fp' & HM' & Hp3 & Hfp'); try done.
    { intros l' Hl' Hnl. unfold h3. apply put_other. intros ->. rewrite Hlo in Hnl. simpl in Hnl. set_solver. }
    { exists m. split; [done|]. assert (Hlom : lo <> m) by (by intros ->). unfold h3. by rewrite put_other. }
    { simpl. by intros l' ->%elem_of_list_singleton. }
    unfold set_map_value. apply runs_bind, runs_bind, runs_get_opt. apply runs_bind. cbn [h_opt]. rewrite Hv.
    eapply runs_deref_map; [exact Hp3|]. apply runs_bind. eapply runs_lift; [unfold cell; rewrite Hy; reflexivity|].
    unfold map_write. apply runs_bind. eapply runs_deref_map; [exact Hp3|]. apply runs_bind.
    eapply runs_lift; [unfold set_cell; rewrite Hy; reflexivity|].
    eapply runs_store; [exact Hp3|]. apply runs_ret.
    exists (assign key (Text v) c), fp', [l].
    assert (Hlfp' : l ∉ fp'). { rewrite Hfp'. simpl. rewrite elem_of_list_singleton. intros [[? _]|?]; done. }
    split.
    + apply kmap_goes_iff. split.
      * rewrite assign_position, Hpos. split; [|split; [|split]].
        -- split; [exact HM'|]. done.
        -- simpl. apply moves_trans with (fp2 := fp ++ [l; m]) (h2 := h2); [exact M12|].
           assert (Hpfp : p ∈ fp) by (subst fp; left).
           set (R := filter (fun l' => l' <> lo) (fp ++ [l; m])).
           assert (HR : forall l', l' ∈ R <-> l' <> lo /\ (l' ∈ fp \/ l' = l \/ l' = m)).
           { intros l'. unfold R. rewrite elem_of_list_filter, elem_of_app, !elem_of_cons, elem_of_nil. tauto. }
           assert (Hlol : lo <> l) by (by intros ->). assert (Hlom : lo <> m) by (by intros ->).
           apply moves_trans with (fp2 := R) (h2 := h3).
           ++ eapply (moves_in R); [eapply (moves_free h2 lo); exact Hlob| | |].
              ** intros l'. rewrite !elem_of_app, HR, elem_of_list_singleton, !elem_of_cons, elem_of_nil. destruct (decide (l' = lo)); naive_solver.
              ** clear. set_solver.
              ** intros l'. rewrite HR, elem_of_list_singleton. intros (Hno & Hl'). split; [done|].
                 destruct Hl' as [Hl'|[-> | ->]]; [|by eapply live_lt|by eapply live_lt]. exact (map_lt _ _ _ _ _ HC2 Hl').
           ++ set (R2 := filter (fun l' => l' <> p) R).
              assert (HR2 : forall l', l' ∈ R2 <-> l' <> p /\ l' ∈ R) by (intros l'; unfold R2; by rewrite elem_of_list_filter).
              assert (HpR : p ∈ R) by (apply HR; auto).
              eapply (moves_in R2); [eapply (moves_put h3 p); exact Hp3| | |].
              ** intros l'. rewrite HR2, elem_of_list_singleton. destruct (decide (l' = p)); naive_solver.
              ** intros l'. rewrite elem_of_app, HR2, Hfp', HR, !elem_of_list_singleton. simpl. rewrite Hlo. simpl. rewrite !elem_of_list_singleton.
                 assert (p <> l) by (by intros ->). assert (p <> m) by (by intros ->).
                 destruct (decide (l' = p)) as [->|]; [split; [auto|]; naive_solver|]. naive_solver.
              ** intros l'. rewrite HR2, elem_of_list_singleton. intros [Hnp Hl']. split; [done|]. unfold h3. rewrite put_len.
                 apply HR in Hl' as (_ & [Hl'|[-> | ->]]); [|by eapply live_lt|by eapply live_lt]. exact (map_lt _ _ _ _ _ HC2 Hl').
        -- done.
        -- intros l' ->%elem_of_list_singleton. split; [done|]. cbn [h_heap]. rewrite put_len. unfold h3. rewrite put_len. by eapply live_lt.
      * rewrite assign_position, Hpos. by apply Forall_insert.
    + left. exists key, v, (Text v). do 5 (split; [done|]). by rewrite bool_decide_eq_true_2.
  - (* a new key *)
    assert (Hnin : key ∉ map fst c) by (by apply position_None).
    apply runs_bind. eapply runs_mono; [by apply map_adjust_goes|]. intros _ s3 (fp3 & G3 & Hroom & p & Hv).
    pose proof G3 as (HA3 & M3 & _). rewrite app_nil_r in M3.
    assert (Hl3 : l ∉ fp3). { eapply moves_disjoint; [exact M3|done|]. by eapply live_lt. }
    assert (Hm3 : m ∉ fp3). { eapply moves_disjoint; [exact M3|done|]. by eapply live_lt. }
    assert (Hlk3 : bl (h_heap s3) !! l = Some (Some (BStr key))) by (by eapply moves_other).
    assert (Hlv3 : bl (h_heap s3) !! m = Some (Some (BStr v))) by (by eapply moves_other).
    apply runs_bind. assert (Hop : own_pair (PHeap l, PHeap m) = [l; m]) by done.
    eapply runs_mono; [apply (map_push_goes D (PHeap l) (PHeap m) (key, Text v) c fp3 s3 p); try done|].
    + split; simpl; [by exists l|by exists m].
    + rewrite Hop. intros l' Hl'. apply elem_of_cons in Hl' as [-> | ->%elem_of_list_singleton ]; done.
    + rewrite Hop. apply NoDup_cons. split; [by rewrite elem_of_list_singleton|apply NoDup_singleton].
    + rewrite Hop. intros u4 s4 G4. cbv beta in G4. apply runs_ret.
      destruct G4 as (HA4 & M4 & S4 & _). destruct G3 as (_ & _ & S3 & _).
      rewrite app_nil_r in M4.
      exists (assign key (Text v) c), (fp3 ++ [l; m]), []. split.
      * apply kmap_goes_iff. rewrite assign_position, Hpos. split; [split; [done|split; [|split]]|].
        -- rewrite app_nil_r. simpl. apply moves_trans with (fp2 := fp ++ [l; m]) (h2 := h2); [exact M12|].
           apply moves_trans with (fp2 := fp3 ++ [l; m]) (h2 := h_heap s3); [|exact M4].
           eapply (moves_in [l; m]); [exact M3|clear; set_solver|clear; set_solver|].
           intros l' Hl'. apply elem_of_cons in Hl' as [-> | ->%elem_of_list_singleton ]; (split; [done|by eapply live_lt]).
        -- destruct S3 as (?&?&?), S4 as (?&?&?). simpl in *. repeat split; congruence.
        -- intros l' []%elem_of_nil.
        -- apply Forall_app. split; [done|]. by repeat constructor.
      * left. exists key, v, (Text v). do 5 (split; [done|]). by rewrite bool_decide_eq_false_2.
Qed.
End pairs.
