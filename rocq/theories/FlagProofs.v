(** * Sorted and unique arrays *)
From Coq Require Import Lia.
From stdpp Require Import sets.
From Verif Require Import Api LibProofs FrameProofs SpecGrammar GrammarProofs SpecAfter SpecMemory HeapProofs SplitProofs ListProofs OrderProofs ArrayProofs.

Lemma short_sequence {E} (P : E -> E -> Prop) l : (length l <= 1)%nat -> in_sequence P l.
Proof.
  intros Hl i j a b Hij Ha Hb. apply lookup_lt_Some in Ha, Hb. lia.
Qed.
Lemma short_firsts {E} (same : E -> E -> bool) l : (length l <= 1)%nat -> firsts same [] l = l.
Proof. destruct l as [|x [|y l]]; simpl; [done|done|lia]. Qed.

Section flags.
Context `{Libc}.
Variable D : decl.

(** ** Sorting *)
Lemma sort_goes {K} k (key : heap -> uval -> res K) (kf : elem -> K) cmp c fp s :
  qsort_sorts -> arr_at D c fp s -> Forall (of_kind k) c -> Forall (sortable k) c ->
  (forall h x e, of_kind k e -> holds h x e -> key h x = Ok (kf e)) ->
  (forall e f, cmp (kf e) (kf f) = ecmp k e f) ->
  runs (sort_array key cmp) s (fun _ s' => exists c' fp', arr_goes D fp s c' fp' [] s' /\
    Permutation c c' /\ in_sequence (precedes k) c').
Proof.
  intros HQ HA HK HS Hkey Hcmp. unfold sort_array. apply runs_bind, runs_get_opt.
  pose proof HA as ((Hc & HC) & Ho & HD). destruct s as [o h lg]. simpl in *.
  destruct (Nat.leb_spec (value_count o) 1) as [Hle|Hgt].
  - apply runs_ret. exists c, fp. split; [by apply goes_refl|]. split; [done|]. apply short_sequence. lia.
  - destruct HC as [(_ & -> & _)|(p & cells & Hv & Hp & Hl & Hcap & Hlen & HF & Hfp & HD')]; [simpl in Hc; lia|].
    apply runs_bind, runs_get_heap. apply runs_bind. rewrite Hv. eapply runs_deref_arr; [exact Hp|].
    destruct (qsort_prefix_spec (holds h) (key h) kf cmp cells c HQ HF) as (cells' & c' & E & P1 & P2 & HF' & HSq).
    { lia. }
    { intros x e Hi Hx. apply Hkey; [|done]. by eapply Forall_forall in HK. }
    { pose proof (ecmp_consistent k c HS) as [C1 C2]. split; intros; rewrite !Hcmp in *; eauto. }
    apply runs_bind. rewrite Hc. eapply runs_lift; [exact E|]. eapply runs_store; [exact Hp|].
    assert (Hlc : length c' = length c) by (symmetry; by apply Permutation_length).
    assert (Hlc' : length cells' = length c') by (by eapply Forall2_length).
    set (fp' := p :: concat (map own cells')).
    assert (Hfp' : Permutation fp fp'). { subst fp. constructor. by apply concat_perm. }
    exists c', fp'. split; [|split; [by symmetry in P2|]].
    + split; [|split; [|split]].
      * split; [|done]. split; [simpl; lia|]. right. exists p, (cells' ++ drop (length c) cells). simpl.
        split; [done|]. split; [by eapply put_same|].
        split; [rewrite app_length, drop_length; lia|]. split; [done|].
        split; [rewrite app_length, drop_length; lia|].
        rewrite <- Hlc', take_app. split; [|split; [done|]].
        -- eapply (all_ext BArr own holds holds_ext holds_live); [|exact HF']. intros l Hi. apply put_other. intros <-.
           subst fp. rewrite Hfp' in HD'. by apply NoDup_cons in HD' as [HD' _].
        -- by rewrite <- Hfp'.
      * simpl. rewrite app_nil_r. eapply moves_equiv; [intros l; reflexivity| |].
        { intros l. instantiate (1 := fp). by rewrite Hfp'. }
        eapply (moves_in (concat (map own (take (length c) cells)))); [by eapply (moves_put h p)|subst fp; set_solver|subst fp; set_solver|].
        intros l Hi. split.
        { intros ->%elem_of_list_singleton. subst fp. by apply NoDup_cons in HD' as [HD' _]. }
        { destruct (all_live own holds holds_live _ _ _ _ HF Hi) as [x Hx]. by eapply live_lt. }
      * done.
      * intros l []%elem_of_nil.
    + intros i j a b Hij Ha Hb. eapply ecmp_precedes. rewrite <- Hcmp. by eapply HSq.
Qed.
Definition text_key (e : elem) : option cstr := Some (text_of e).
Lemma read_text h x e : of_kind EText e -> holds h x e -> read_str h x = Ok (text_key e).
Proof.
  destruct e as [s|w z]; [|done]. intros _ (l & -> & Hl). unfold read_str. simpl. unfold deref_str. simpl. by rewrite Hl.
Qed.
Lemma as_int_num k h x e : k = EInt \/ k = ELong -> of_kind k e -> holds h x e -> as_int x = Ok (int_of e).
Proof. intros Hk. destruct e as [s|[] z]; destruct Hk as [-> | ->]; simpl; try done; intros _ ->; done. Qed.
Lemma as_float_num h x e : of_kind EFloat e -> holds h x e -> as_float x = Ok (bits_of e).
Proof. destruct e as [s|[] z]; try done. simpl. intros _ ->. done. Qed.

(** ** Uniqueness *)
Definition tells (k : ekind) (same : heap -> uval -> uval -> res bool) : Prop :=
  forall h x y e f, of_kind k e -> of_kind k f -> holds h x e -> holds h y f -> same h x y = Ok (alike k e f).

Lemma is_dup_spec k same (Hs : tells k same) h cs x e kept n : forall j,
  of_kind k e -> holds h x e -> Forall (of_kind k) kept -> length kept = n ->
  (forall i f, kept !! i = Some f -> exists y, cs !! (j + i)%nat = Some y /\ holds h y f) ->
  is_dup same h cs x j n = Ok (existsb (alike k e) kept).
Proof.
  revert kept. induction n as [|n IH]; intros kept j Ke Hx HK Hl Hc; destruct kept as [|f kept]; simpl in *; try lia; [done|].
  destruct (Hc 0%nat f eq_refl) as (y & Hy & Hyf). rewrite Nat.add_0_r in Hy.
  unfold cell. rewrite Hy. simpl. apply Forall_cons in HK as [Kf HK].
  rewrite (Hs h x y e f) by done. simpl. destruct (alike k e f); [done|]. simpl.
  apply IH; try done; [lia|]. intros i g Hg. destruct (Hc (S i) g Hg) as (z & Hz & Hzg). exists z.
  split; [|done]. rewrite <- Hz. f_equal. lia.
Qed.

Lemma concat_own_app (xs ys : list uval) : concat (map own (xs ++ ys)) = concat (map own xs) ++ concat (map own ys).
Proof. by rewrite map_app, concat_app. Qed.

Lemma uniq_loop_spec k same fd (Hs : tells k same) (Hfd : fd = true <-> k = EText) n :
  forall i uc cs h kept rest xs ys tl,
  take uc cs = xs -> length xs = uc -> drop i cs = ys ++ tl -> length ys = n -> (uc <= i)%nat ->
  Forall2 (holds h) xs kept -> Forall2 (holds h) ys rest -> Forall (of_kind k) kept -> Forall (of_kind k) rest ->
  NoDup (concat (map own (xs ++ ys))) ->
  exists uc' cs' h' zs, uniq_loop same fd i uc n cs h = Ok (uc', cs', h') /\ length cs' = length cs /\
    take uc' cs' = xs ++ zs /\ uc' = length (xs ++ zs) /\
    Forall2 (holds h') (xs ++ zs) (kept ++ firsts (alike k) kept rest) /\
    moves (concat (map own (xs ++ ys))) h (concat (map own (xs ++ zs))) h' /\ oom h' = oom h /\
    NoDup (concat (map own (xs ++ zs))).
Proof.
  induction n as [|n IH]; intros i uc cs h kept rest xs ys tl Hxs Hlx Hd Hly Hle HF1 HF2 HK1 HK2 HN.
  - destruct ys; [|done]. apply Forall2_nil_inv_l in HF2 as ->. simpl. exists uc, cs, h, []. rewrite !app_nil_r in *.
    split; [done|]. split; [done|]. split; [done|]. split; [done|]. split; [done|]. split; [apply moves_refl|]. done.
  - destruct ys as [|x ys]; [done|]. inversion HF2 as [|? e ? rest' Hx HF2']; subst rest. simpl in Hly.
    apply Forall_cons in HK2 as [Ke HK2].
    assert (Hci : cs !! i = Some x).
    { rewrite <- (Nat.add_0_r i), <- lookup_drop, Hd. done. }
    assert (Hd' : drop (S i) cs = ys ++ tl).
    { replace (S i) with (i + 1)%nat by lia. rewrite <- drop_drop, Hd. done. }
    assert (Hucl : (i < length cs)%nat) by (by eapply lookup_lt_Some).
    cbn [uniq_loop]. unfold cell at 1. rewrite Hci. cbn [rbind].
    rewrite (is_dup_spec k same Hs h cs x e kept) with (n := uc) (j := O); try done.
    2:{ rewrite <- Hlx. symmetry. by eapply Forall2_length. }
    2:{ intros j f Hf. destruct (Forall2_lookup_r _ _ _ _ _ HF1 Hf) as (y & Hy & Hyf). exists y. split; [|done].
        simpl. rewrite <- Hxs in Hy. apply lookup_take_Some in Hy as [Hy _]. done. }
    cbn [rbind firsts]. destruct (existsb (alike k e) kept) eqn:Edup.
    + (* a duplicate *)
      destruct fd.
      * assert (k = EText) as -> by (by apply Hfd). destruct e as [t|]; [|done].
        destruct Hx as (la & -> & Hla). simpl free. rewrite Hla. cbn [rbind].
        rewrite concat_own_app in HN. simpl in HN.
        assert (Hln : la ∉ concat (map own (xs ++ ys))).
        { rewrite concat_own_app. apply NoDup_app in HN as (N1 & N2 & N3). apply NoDup_cons in N3 as [N3 N4].
          rewrite elem_of_app. intros [Hz|Hz]; [|done]. apply (N2 la Hz). left. }
        set (h1 := Heap (<[la := None]> (bl h)) (oom h)).
        assert (Hun : forall la', la' ∈ concat (map own (xs ++ ys)) -> bl h1 !! la' = bl h !! la').
        { intros la' Hla'. change h1 with (put_block h la None). apply put_other. intros ->. done. }
        destruct (IH (S i) uc cs h1 kept rest' (xs) ys tl) as (uc' & cs' & h' & zs & E & Hlen & Htk & Huc & HF & M & Hoo & HNz).
        -- done.
        -- done.
        -- done.
        -- lia.
        -- lia.
        -- eapply (all_ext BArr own holds holds_ext holds_live); [|exact HF1]. intros la' Hla'. apply Hun. rewrite concat_own_app, elem_of_app. auto.
        -- eapply (all_ext BArr own holds holds_ext holds_live); [|exact HF2']. intros la' Hla'. apply Hun. rewrite concat_own_app, elem_of_app. auto.
        -- done.
        -- done.
        -- rewrite concat_own_app. apply NoDup_app in HN as (N1 & N2 & N3). apply NoDup_cons in N3 as [N3 N4].
           apply NoDup_app. split; [done|]. split; [|done]. intros z Hz1 Hz2. apply (N2 z Hz1). by right.
        -- exists uc', cs', h', zs. split; [done|]. split; [done|]. split; [done|]. split; [done|]. split; [done|].
           split; [|done]. eapply moves_trans; [|exact M].
           eapply (moves_in (concat (map own (xs ++ ys)))); [eapply (moves_free h la); exact Hla|
             rewrite !concat_own_app; simpl; clear; set_solver|rewrite !concat_own_app; clear; set_solver|].
           intros la' Hla'. split; [intros ->%elem_of_list_singleton; done|]. rewrite concat_own_app in Hla'. apply elem_of_app in Hla' as [Hla'|Hla'].
           { destruct (all_live own holds holds_live _ _ _ _ HF1 Hla'). by eapply live_lt. }
           { destruct (all_live own holds holds_live _ _ _ _ HF2' Hla'). by eapply live_lt. }
      * assert (Hnt : k <> EText). { intros Hk. apply Hfd in Hk. done. }
        assert (Hox : own x = []) by (by eapply num_own). cbn [rbind].
        assert (Hsame : concat (map own (xs ++ x :: ys)) = concat (map own (xs ++ ys))).
        { rewrite !concat_own_app. simpl. by rewrite Hox. }
        rewrite Hsame in *.
        apply (IH (S i) uc cs h kept rest' (xs) ys tl); try done; lia.
    + (* kept *)
      assert (Hk : (uc < length cs)%nat) by lia.
      unfold set_cell.
      destruct (lookup_lt_is_Some_2 cs uc Hk) as [z Hz]. rewrite Hz. cbn [rbind].
      assert (Htk : take (S uc) (<[uc:=x]> cs) = xs ++ [x]).
      { erewrite take_S_r by (by apply list_lookup_insert). by rewrite take_insert, Hxs by lia. }
      destruct (IH (S i) (S uc) (<[uc := x]> cs) h (kept ++ [e]) rest' (xs ++ [x]) ys tl)
        as (uc' & cs' & h' & zs & E & Hlen & Htk' & Huc & HF & M & Hoo & HNz).
      * done.
      * rewrite app_length. simpl. lia.
      * rewrite drop_insert_gt by lia. done.
      * lia.
      * lia.
      * apply Forall2_app; [done|]. by constructor.
      * done.
      * apply Forall_app. split; [done|]. by constructor.
      * done.
      * by rewrite <- app_assoc.
      * rewrite <- !app_assoc in *. simpl in *. exists uc', cs', h', (x :: zs). split; [done|].
        rewrite insert_length in Hlen. split; [done|]. split; [done|]. split; [done|]. split; [done|]. done.
Qed.
Lemma unique_goes k same fd c fp s : tells k same -> (fd = true <-> k = EText) ->
  arr_at D c fp s -> Forall (of_kind k) c ->
  runs (let! n := make_unique same fd in mod_opt (fun o => with_count o n)) s (fun _ s' => exists fp',
    arr_goes D fp s (firsts (alike k) [] c) fp' [] s').
Proof.
  intros Hs Hfd HA HK. apply runs_bind. unfold make_unique. apply runs_bind, runs_get_opt.
  pose proof HA as ((Hc & HC) & Ho & HD). destruct s as [o h lg]. simpl in *.
  destruct (Nat.leb_spec (value_count o) 1) as [Hle|Hgt].
  - apply runs_ret. apply runs_mod. simpl. exists fp. rewrite short_firsts by lia.
    destruct o. split; [exact HA|]. rewrite app_nil_r. split; [apply moves_refl|]. split; [done|]. intros l []%elem_of_nil.
  - destruct HC as [(_ & -> & _)|(p & cells & Hv & Hp & Hl & Hcap & Hlen & HF & Hfp & HD')]; [simpl in Hc; lia|].
    apply runs_bind, runs_get_heap. apply runs_bind. rewrite Hv. eapply runs_deref_arr; [exact Hp|].
    destruct c as [|e0 rest]; [simpl in Hc; lia|]. simpl in Hlen. destruct cells as [|x0 cells]; [simpl in Hlen; lia|].
    simpl take in *. inversion HF as [|? ? ? ? Hx0 HF']; subst. apply Forall_cons in HK as [K0 HK].
    destruct (uniq_loop_spec k same fd Hs Hfd (value_count o - 1) 1 1 (x0 :: cells) h [e0] rest [x0]
      (take (length rest) cells) (drop (length rest) cells)) as (uc & cs & h1 & zs & E & Hlc & Htk & Huc & HFz & M & Hoo & HNz).
    + simpl. by rewrite take_0.
    + done.
    + simpl. by rewrite drop_0, take_drop.
    + rewrite take_length. simpl in *. lia.
    + lia.
    + by constructor.
    + done.
    + by constructor.
    + done.
    + by apply NoDup_cons in HD' as [_ HD'].
    + apply runs_bind. eapply runs_lift; [exact E|]. cbv beta iota. apply runs_bind, runs_put_heap. simpl.
      assert (Hpn : p ∉ concat (map own ([x0] ++ take (length rest) cells))) by (by apply NoDup_cons in HD' as [HD' _]).
      assert (Hp1 : bl h1 !! p = Some (Some (BArr (x0 :: cells)))) by (by eapply moves_other).
      assert (Hpz : p ∉ concat (map own ([x0] ++ zs))).
      { eapply moves_disjoint; [exact M|done|by eapply live_lt]. }
      apply runs_bind. eapply runs_store; [exact Hp1|]. apply runs_ret, runs_mod. simpl.
      exists (p :: concat (map own ([x0] ++ zs))).
      assert (Hlf : length ([x0] ++ zs) = length (e0 :: firsts (alike k) [e0] rest)) by (by eapply Forall2_length).
      split; [|split; [|split]].
      * split; [|split; [|done]].
        -- split; [simpl in *; lia|]. right. exists p, cs. simpl h_opt. simpl value.
           split; [done|]. split; [by eapply put_same|]. simpl value_capacity. split; [simpl in *; lia|]. split; [done|].
           assert (length ([x0] ++ zs) <= length cs)%nat. { rewrite <- Htk, take_length. lia. }
           split; [simpl in *; lia|]. rewrite <- Hlf, <- Huc, Htk. split; [|split; [done|]].
           ++ eapply (all_ext BArr own holds holds_ext holds_live); [|exact HFz]. intros l Hi. apply put_other. by intros <-.
           ++ by apply NoDup_cons.
        -- simpl. congruence.
      * simpl h_heap. rewrite app_nil_r. apply moves_trans with (fp2 := [p] ++ concat (map own ([x0] ++ zs))) (h2 := h1).
        -- eapply (moves_in [p]); [exact M|clear; set_solver|clear; set_solver|].
           intros l ->%elem_of_list_singleton. split; [done|by eapply live_lt].
        -- eapply (moves_in (concat (map own ([x0] ++ zs)))); [by eapply (moves_put h1 p)|clear; set_solver|clear; set_solver|].
           intros l Hi. split; [intros ->%elem_of_list_singleton; done|].
           destruct (all_live own holds holds_live _ _ _ _ HFz Hi) as [t Ht]. by eapply live_lt.
      * done.
      * intros l []%elem_of_nil.
Qed.
Lemma tells_int k : k = EInt \/ k = ELong -> tells k same_int.
Proof.
  intros Hk h x y e f Ke Kf Hx Hy. unfold same_int. rewrite (as_int_num k h x e), (as_int_num k h y f) by done.
  simpl. by destruct Hk as [-> | ->].
Qed.
Lemma tells_str : tells EText same_str.
Proof.
  intros h x y e f Ke Kf Hx Hy. destruct e as [s|], f as [t|]; try done.
  destruct Hx as (l & -> & Hl), Hy as (l' & -> & Hl'). unfold same_str. simpl. unfold deref_str. simpl. rewrite Hl, Hl'. simpl.
  by rewrite strcmp_eqb.
Qed.
Lemma tells_float : tells EFloat same_float.
Proof. intros h x y e f Ke Kf Hx Hy. unfold same_float. by rewrite (as_float_num h x e), (as_float_num h y f). Qed.

(** ** The flags of an array *)
Lemma firsts_kind k (same : elem -> elem -> bool) l : forall kept, Forall (of_kind k) l -> Forall (of_kind k) (firsts same kept l).
Proof.
  induction l as [|x l IH]; intros kept HK; simpl; [constructor|]. apply Forall_cons in HK as [Kx HK].
  destruct (existsb (same x) kept); [by apply IH|]. constructor; [done|by apply IH].
Qed.
Lemma flagged_kind k fl c c' : flagged k fl c c' -> Forall (of_kind k) c -> Forall (of_kind k) c'.
Proof.
  intros (c1 & H1 & ->) HK. assert (Forall (of_kind k) c1).
  { destruct (N.testbit fl 9); [destruct H1 as [H1 _]; by rewrite <- H1|by subst]. }
  destruct (N.testbit fl 10); [by apply firsts_kind|done].
Qed.
Lemma flagged_nonempty k fl c c' : flagged k fl c c' -> c <> [] -> c' <> [].
Proof.
  intros (c1 & H1 & ->) Hn. assert (c1 <> []).
  { destruct (N.testbit fl 9); [|by subst]. destruct H1 as [H1 _]. intros ->. symmetry in H1. by apply Permutation_nil in H1. }
  destruct (N.testbit fl 10); [|done]. destruct c1; done.
Qed.
Lemma has_bit_eq v b : has v (2 ^ b) = N.testbit v b.
Proof. apply eq_true_iff_eq, has_bit. Qed.
Lemma array_flags_goes k c fp s : qsort_sorts -> arr_at D c fp s -> array_kind (d_vtype D) = Some k ->
  Forall (of_kind k) c -> (N.testbit (d_flags D) 9 = true -> Forall (sortable k) c) ->
  runs apply_array_flags s (fun _ s' => exists c' fp', arr_goes D fp s c' fp' [] s' /\ flagged k (d_flags D) c c').
Proof.
  intros HQ HA Hk HK HS. pose proof HA as ((Hc & _) & Ho & HD). unfold apply_array_flags. apply runs_bind, runs_get_opt.
  rewrite HD. destruct (Nat.leb_spec (value_count (h_opt s)) 1) as [Hle|Hgt].
  { apply runs_ret. exists c, fp. split; [by apply goes_refl|]. exists c. rewrite short_firsts by lia.
    split; [|by destruct (N.testbit (d_flags D) 10)]. destruct (N.testbit _ _); [|done]. split; [done|]. apply short_sequence. lia. }
  change FLAG_SORTED with (2 ^ 9)%N. change FLAG_UNIQUE with (2 ^ 10)%N. rewrite !has_bit_eq.
  set (vt := d_vtype D) in *.
  assert (HSort : N.testbit (d_flags D) 9 = true -> runs (if (vt =? VT_ARRAY_INT)%N || (vt =? VT_VARIADIC_INT)%N then sort_int_array
       else if (vt =? VT_ARRAY_STRING)%N || (vt =? VT_VARIADIC_STRING)%N then sort_string_array
       else if (vt =? VT_ARRAY_FLOAT)%N || (vt =? VT_VARIADIC_FLOAT)%N then sort_float_array else hret tt) s
     (fun _ s' => exists c' fp', arr_goes D fp s c' fp' [] s' /\ Permutation c c' /\ in_sequence (precedes k) c')).
  { intros Hb. specialize (HS Hb). unfold array_kind in Hk.
    destruct (vt =? VT_ARRAY_INT)%N; simpl; [injection Hk as <-; apply (sort_goes EInt _ int_of); try done; intros h x e; apply as_int_num; auto|].
    destruct (vt =? VT_VARIADIC_INT)%N; simpl; [injection Hk as <-; apply (sort_goes ELong _ int_of); try done; intros h x e; apply as_int_num; auto|].
    destruct ((vt =? VT_ARRAY_STRING)%N || (vt =? VT_VARIADIC_STRING)%N); simpl;
      [injection Hk as <-; apply (sort_goes EText _ text_key); try done; intros h x e; apply read_text; auto|].
    destruct ((vt =? VT_ARRAY_FLOAT)%N || (vt =? VT_VARIADIC_FLOAT)%N); simpl;
      [injection Hk as <-; apply (sort_goes EFloat _ bits_of); try done; intros h x e; apply as_float_num; auto|done]. }
  assert (HUniq : forall c1 fp1 s1, arr_at D c1 fp1 s1 -> Forall (of_kind k) c1 ->
     runs (if (vt =? VT_ARRAY_INT)%N || (vt =? VT_VARIADIC_INT)%N then
         let! n := make_int_array_unique in mod_opt (fun o => with_count o n)
       else if (vt =? VT_ARRAY_STRING)%N || (vt =? VT_VARIADIC_STRING)%N then
         let! n := make_string_array_unique in mod_opt (fun o => with_count o n)
       else if (vt =? VT_ARRAY_FLOAT)%N || (vt =? VT_VARIADIC_FLOAT)%N then
         let! n := make_float_array_unique in mod_opt (fun o => with_count o n)
       else hret tt) s1 (fun _ s' => exists fp', arr_goes D fp1 s1 (firsts (alike k) [] c1) fp' [] s')).
  { intros c1 fp1 s1 HA1 HK1. unfold array_kind in Hk.
    destruct (vt =? VT_ARRAY_INT)%N; simpl; [injection Hk as <-; apply unique_goes; [apply tells_int; auto|done|done|done]|].
    destruct (vt =? VT_VARIADIC_INT)%N; simpl; [injection Hk as <-; apply unique_goes; [apply tells_int; auto|done|done|done]|].
    destruct ((vt =? VT_ARRAY_STRING)%N || (vt =? VT_VARIADIC_STRING)%N); simpl;
      [injection Hk as <-; apply unique_goes; [apply tells_str|done|done|done]|].
    destruct ((vt =? VT_ARRAY_FLOAT)%N || (vt =? VT_VARIADIC_FLOAT)%N); simpl;
      [injection Hk as <-; apply unique_goes; [apply tells_float|done|done|done]|done]. }
  apply runs_bind. apply runs_mono with (Q := fun _ s' => exists c1 fp', arr_goes D fp s c1 fp' [] s' /\
     if N.testbit (d_flags D) 9 then Permutation c c1 /\ in_sequence (precedes k) c1 else c1 = c).
  { destruct (N.testbit (d_flags D) 9).
    - eapply runs_mono; [by apply HSort|]. intros u s' (c1 & fp1 & G & HP). eauto.
    - apply runs_ret. exists c, fp. split; [by apply goes_refl|done]. }
  intros u s1 (c1 & fp1 & G1 & HP). destruct (N.testbit (d_flags D) 10) eqn:E10.
  - eapply runs_mono; [apply (HUniq c1 fp1); [by destruct G1|]|].
    + destruct (N.testbit (d_flags D) 9); [destruct HP as [HP _]; by rewrite <- HP|by subst].
    + intros u' s2 (fp2 & G2). exists (firsts (alike k) [] c1), fp2. split; [by eapply goes_then|].
      exists c1. by rewrite E10.
  - apply runs_ret. exists c1, fp1. split; [done|]. exists c1. by rewrite E10.
Qed.
End flags.
