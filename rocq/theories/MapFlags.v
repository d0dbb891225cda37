(** * Sorted and unique maps *)
From Coq Require Import Lia.
From stdpp Require Import sets.
From Verif Require Import Api LibProofs FrameProofs SpecGrammar GrammarProofs SpecAfter SpecMemory SpecContents HeapProofs SplitProofs
  ListProofs OrderProofs ArrayProofs FlagProofs MapProofs MapHandlers.

(** ** Which entries are dropped *)
Fixpoint drops {E} (same : E -> E -> bool) (kept l : list E) : list bool :=
  match l with
  | [] => []
  | x :: l' => let d := existsb (same x) kept in d :: drops same (if d then kept else kept ++ [x]) l'
  end.
Lemma drops_length {E} (same : E -> E -> bool) l : forall kept, length (drops same kept l) = length l.
Proof. induction l as [|x l IH]; intros kept; simpl; [done|]. by rewrite IH. Qed.

Section marks.
Variables (k : ekind) (same : heap -> uval -> uval -> res bool).
Hypothesis Hs : tells k same.
Let sm (p q : cstr * elem) : bool := alike k (snd q) (snd p).

Lemma mark_from_spec h cs x e rest : forall j front ds,
  of_kind k e -> holds h x e -> length front = j -> length ds = length rest ->
  (forall i p, rest !! i = Some p -> exists y, cs !! (j + i)%nat = Some y /\ kpair k h y p) ->
  mark_from same h cs x j (length rest) (front ++ ds) = Ok (front ++ zip_with (fun d p => d || alike k e (snd p)) ds rest).
Proof.
  induction rest as [|p rest IH]; intros j front ds Ke Hx Hf Hd Hc; destruct ds as [|d ds]; try done.
  cbn [mark_from length zip_with]. unfold cell at 1.
  assert (Hj : (front ++ d :: ds) !! j = Some d) by (rewrite lookup_app_r by lia; by rewrite Hf, Nat.sub_diag).
  rewrite Hj. cbn [rbind].
  assert (HIH : forall d', mark_from same h cs x (S j) (length rest) (front ++ d' :: ds) =
     Ok (front ++ d' :: zip_with (fun d p => d || alike k e (snd p)) ds rest)).
  { intros d'. change (d' :: ds) with ([d'] ++ ds). change (d' :: zip_with (fun d p => d || alike k e (snd p)) ds rest)
      with ([d'] ++ zip_with (fun d p => d || alike k e (snd p)) ds rest). rewrite !app_assoc. apply IH; try done.
    - rewrite app_length. simpl. lia.
    - simpl in Hd. lia.
    - intros i q Hq. destruct (Hc (S i) q Hq) as (y & Hy & Hyq). exists y. split; [|done]. rewrite <- Hy. f_equal. lia. }
  destruct d; [apply HIH|].
  destruct (Hc O p eq_refl) as (y & Hy & [[_ Hyp] Kp]). rewrite Nat.add_0_r in Hy. unfold cell. rewrite Hy. cbn [rbind].
  rewrite (Hs h x (snd y) e (snd p)) by done. cbn [rbind orb]. destruct (alike k e (snd p)); [|apply HIH].
  unfold set_cell. rewrite Hj. cbn [rbind].
  rewrite insert_app_r_alt by lia. rewrite Hf, Nat.sub_diag. apply HIH.
Qed.
Lemma mark_loop_spec h cs rest : forall i front kept,
  length front = i ->
  (forall j p, rest !! j = Some p -> exists y, cs !! (i + j)%nat = Some y /\ kpair k h y p) ->
  mark_loop same h cs i (length rest) (front ++ map (fun p => existsb (sm p) kept) rest) = Ok (front ++ drops sm kept rest).
Proof.
  induction rest as [|p rest IH]; intros i front kept Hf Hc; [done|]. cbn [mark_loop length map drops]. unfold cell at 1.
  rewrite lookup_app_r by lia. rewrite Hf, Nat.sub_diag. cbn [lookup list_lookup rbind].
  assert (HIH : forall d kept', mark_loop same h cs (S i) (length rest) (front ++ d :: map (fun p => existsb (sm p) kept') rest) =
     Ok (front ++ d :: drops sm kept' rest)).
  { intros d kept'. change (d :: map (fun p => existsb (sm p) kept') rest) with ([d] ++ map (fun p => existsb (sm p) kept') rest).
    change (d :: drops sm kept' rest) with ([d] ++ drops sm kept' rest). rewrite !app_assoc. apply IH.
    - rewrite app_length. simpl. lia.
    - intros j q Hq. destruct (Hc (S j) q Hq) as (y & Hy & Hyq). exists y. split; [|done]. rewrite <- Hy. f_equal. lia. }
  destruct (existsb (sm p) kept) eqn:Ed; [apply HIH|].
  destruct (Hc O p eq_refl) as (y & Hy & [[_ Hyp] Kp]). rewrite Nat.add_0_r in Hy. unfold cell. rewrite Hy. cbn [rbind].
  change (false :: map (fun p => existsb (sm p) kept) rest) with ([false] ++ map (fun p => existsb (sm p) kept) rest).
  rewrite app_assoc. rewrite (mark_from_spec h cs (snd y) (snd p) rest (S i)); try done.
  - cbn [rbind]. rewrite <- app_assoc. simpl app. rewrite <- HIH. f_equal. f_equal. f_equal.
    clear -rest. induction rest as [|q rest IH]; [done|]. simpl. rewrite IH. f_equal.
    rewrite existsb_app. simpl. unfold sm at 3. by rewrite orb_false_r.
  - rewrite app_length. simpl. lia.
  - by rewrite map_length.
  - intros j q Hq. destruct (Hc (S j) q Hq) as (z & Hz & Hzq). exists z. split; [|done]. rewrite <- Hz. f_equal. lia.
Qed.
End marks.
Lemma existsb_none {E F} (sm : E -> F -> bool) (c : list E) : map (fun p => existsb (sm p) []) c = replicate (length c) false.
Proof. induction c as [|p c IH]; [done|]. simpl. f_equal. exact IH. Qed.

Lemma concat_pair_app (xs ys : list (uval * uval)) :
  concat (map own_pair (xs ++ ys)) = concat (map own_pair xs) ++ concat (map own_pair ys).
Proof. by rewrite map_app, concat_app. Qed.

Lemma map_kind_text vt k : map_kind vt = Some k -> ((vt =? VT_STRING)%N || (vt =? VT_MAP_STRING)%N) = true <-> k = EText.
Proof.
  unfold map_kind. intros Hk.
  destruct (N.eqb_spec vt VT_MAP_INT) as [->|]; [injection Hk as <-; done|].
  destruct (N.eqb_spec vt VT_MAP_STRING) as [->|]; [injection Hk as <-; done|].
  destruct (N.eqb_spec vt VT_MAP_FLOAT) as [->|]; [injection Hk as <-; done|].
  destruct (N.eqb_spec vt VT_MAP_BOOL) as [->|]; [injection Hk as <-; done|done].
Qed.

(** ** Dropping entries *)
Definition drop_entry (ty : N) (x : uval * uval) (h : heap) : res heap :=
  let* h1 := free (fst x) h in
  if (ty =? VT_STRING)%N || (ty =? VT_MAP_STRING)%N then
    let* z := is_null (snd x) in
    if (z : bool) then Ok h1 else free (snd x) h1
  else Ok h1.
Lemma drop_entry_spec ty k x p h : map_kind ty = Some k -> kpair k h x p -> NoDup (own_pair x) ->
  exists h', drop_entry ty x h = Ok h' /\ moves (own_pair x) h [] h' /\ oom h' = oom h.
Proof.
  intros Hk [[(lk & Hxk & Hlk) Hv] Kp] HN. unfold drop_entry, own_pair in *. destruct x as [xk xv]. simpl in *. subst xk.
  simpl. rewrite Hlk. cbn [rbind]. change (Heap (<[lk:=None]> (blocks h)) (oom h)) with (put_block h lk None).
  destruct (_ || _) eqn:E.
  - pose proof (proj1 (map_kind_text _ _ Hk) E) as ->. destruct (snd p) as [t|]; [|done]. destruct Hv as (lv & -> & Hlv). simpl in *.
    apply NoDup_cons in HN as [HN _]. rewrite elem_of_list_singleton in HN.
    assert (Hlv' : bl (put_block h lk None) !! lv = Some (Some (BStr t))) by (rewrite put_other; done).
    simpl in Hlv'. rewrite Hlv'. eexists. split; [done|]. split; [|done].
    change (Heap (<[lv:=None]> (<[lk:=None]> (bl h))) (oom h)) with (put_block (put_block h lk None) lv None).
    apply moves_trans with (fp2 := [lv]) (h2 := put_block h lk None).
    + eapply (moves_in [lv]); [by eapply (moves_free h lk)|clear; set_solver|clear; set_solver|].
      intros l ->%elem_of_list_singleton. split; [by rewrite elem_of_list_singleton|by eapply live_lt].
    + by eapply moves_free.
  - assert (k <> EText). { intros ->. rewrite (proj2 (map_kind_text _ _ Hk) eq_refl) in E. done. }
    assert (own xv = []) as -> by (by eapply num_own). eexists. split; [done|]. split; [|done]. by eapply moves_free.
Qed.

Section flags.
Context `{Libc}.
Variable D : decl.

Lemma rebuild_spec ty k (sm : cstr * elem -> cstr * elem -> bool) dups rest : map_kind ty = Some k ->
  forall i uc cs h kept keptp xs ys tl,
  drop i dups = drops sm kept rest ->
  take uc cs = xs -> length xs = uc -> drop i cs = ys ++ tl -> (uc <= i)%nat ->
  Forall2 (kpair k h) xs keptp -> Forall2 (kpair k h) ys rest ->
  NoDup (concat (map own_pair (xs ++ ys))) ->
  exists uc' cs' h' zs, rebuild_loop ty dups i uc (length rest) cs h = Ok (uc', cs', h') /\ length cs' = length cs /\
    take uc' cs' = xs ++ zs /\ uc' = length (xs ++ zs) /\
    Forall2 (kpair k h') (xs ++ zs) (keptp ++ firsts sm kept rest) /\
    moves (concat (map own_pair (xs ++ ys))) h (concat (map own_pair (xs ++ zs))) h' /\ oom h' = oom h /\
    NoDup (concat (map own_pair (xs ++ zs))).
Proof.
  intros Hk. induction rest as [|p rest IH]; intros i uc cs h kept keptp xs ys tl Hdu Hxs Hlx Hd Hle HF1 HF2 HN.
  - apply Forall2_nil_inv_r in HF2 as ->. simpl. exists uc, cs, h, []. rewrite !app_nil_r in *.
    split; [done|]. split; [done|]. split; [done|]. split; [done|]. split; [done|]. split; [apply moves_refl|]. done.
  - destruct ys as [|x ys]; [by inversion HF2|]. apply Forall2_cons in HF2 as [Hx HF2].
    assert (Hci : cs !! i = Some x). { rewrite <- (Nat.add_0_r i), <- lookup_drop, Hd. done. }
    assert (Hd' : drop (S i) cs = ys ++ tl). { replace (S i) with (i + 1)%nat by lia. by rewrite <- drop_drop, Hd. }
    cbn [drops] in Hdu. set (d := existsb (sm p) kept) in *.
    assert (Hdi : dups !! i = Some d). { rewrite <- (Nat.add_0_r i), <- lookup_drop, Hdu. done. }
    assert (Hdu' : drop (S i) dups = drops sm (if d then kept else kept ++ [p]) rest).
    { replace (S i) with (i + 1)%nat by lia. by rewrite <- drop_drop, Hdu. }
    assert (Hil : (i < length cs)%nat) by (by eapply lookup_lt_Some).
    cbn [rebuild_loop length firsts]. fold d. unfold cell. rewrite Hdi, Hci. cbn [rbind].
    destruct d.
    + (* dropped *)
      assert (HNx : NoDup (own_pair x) /\ NoDup (concat (map own_pair (xs ++ ys))) /\ forall l, l ∈ own_pair x -> l ∉ concat (map own_pair (xs ++ ys))).
      { rewrite concat_pair_app in HN. simpl in HN. apply NoDup_app in HN as (N1 & N2 & N3). apply NoDup_app in N3 as (N3 & N4 & N5).
        split; [done|]. rewrite concat_pair_app. split.
        - apply NoDup_app. split; [done|]. split; [|done]. intros l Hl Hl'. apply (N2 l Hl). rewrite elem_of_app. auto.
        - intros l Hl [Hl'|Hl']%elem_of_app; [apply (N2 l Hl'); rewrite elem_of_app; auto|by apply (N4 l)]. }
      destruct HNx as (HNx & HNr & Hdis).
      destruct (drop_entry_spec ty k x p h Hk Hx HNx) as (h1 & E1 & M1 & Ho1).
      assert (Hun : forall l, l ∈ concat (map own_pair (xs ++ ys)) -> (l < length (bl h))%nat /\ bl h1 !! l = bl h !! l).
      { intros l Hl. assert (l < length (bl h))%nat.
        { rewrite concat_pair_app in Hl. apply elem_of_app in Hl as [Hl|Hl].
          - destruct (all_live own_pair (kpair k) (kpair_live k) _ _ _ _ HF1 Hl). by eapply live_lt.
          - destruct (all_live own_pair (kpair k) (kpair_live k) _ _ _ _ HF2 Hl). by eapply live_lt. }
        split; [done|]. destruct M1 as [_ M1 _ _]. apply M1; [done|]. intros Hl'. by apply (Hdis l). }
      destruct (IH (S i) uc cs h1 kept keptp xs ys tl) as (uc' & cs' & h' & zs & E & Hlen & Htk & Huc & HF & M & Hoo & HNz); try done.
      * lia.
      * eapply (all_ext BMap own_pair (kpair k) (kpair_ext k) (kpair_live k)); [|exact HF1]. intros l Hl. apply Hun. rewrite concat_pair_app, elem_of_app. auto.
      * eapply (all_ext BMap own_pair (kpair k) (kpair_ext k) (kpair_live k)); [|exact HF2]. intros l Hl. apply Hun. rewrite concat_pair_app, elem_of_app. auto.
      * exists uc', cs', h', zs. split.
        { unfold drop_entry in E1. destruct (free (fst x) h) as [hh|]; [|done]. cbn [rbind] in E1 |- *. rewrite E1. exact E. }
        split; [done|]. split; [done|]. split; [done|]. split; [done|]. split; [|split; [congruence|done]].
        eapply moves_trans; [|exact M].
        eapply (moves_in (concat (map own_pair (xs ++ ys)))); [exact M1|
           rewrite !concat_pair_app; simpl; clear; set_solver|clear; set_solver|].
        intros l Hl. split; [|by apply Hun]. intros Hl'. by apply (Hdis l).
    + (* kept *)
      assert (exists cs1, (if (i =? uc)%nat then Ok cs else set_cell cs uc x) = Ok cs1 /\ length cs1 = length cs /\
        take (S uc) cs1 = xs ++ [x] /\ drop (S i) cs1 = ys ++ tl) as (cs1 & E1 & Hl1 & Ht1 & Hd1).
      { destruct (Nat.eqb_spec i uc) as [Hiu|_].
        - exists cs. split; [done|]. split; [done|]. split; [|done]. subst i. by erewrite take_S_r, Hxs.
        - destruct (lookup_lt_is_Some_2 cs uc) as [z Hz]; [lia|]. unfold set_cell. rewrite Hz. eexists. split; [done|].
          split; [by rewrite insert_length|]. split.
          + erewrite take_S_r by (apply list_lookup_insert; lia). by rewrite take_insert, Hxs by lia.
          + by rewrite drop_insert_gt by lia. }
      rewrite E1. cbn [rbind].
      destruct (IH (S i) (S uc) cs1 h (kept ++ [p]) (keptp ++ [p]) (xs ++ [x]) ys tl)
        as (uc' & cs' & h' & zs & E & Hlen & Htk' & Huc & HF & M & Hoo & HNz); try done.
      * rewrite app_length. simpl. lia.
      * lia.
      * apply Forall2_app; [done|]. by constructor.
      * by rewrite <- app_assoc.
      * rewrite <- !app_assoc in *. simpl in *. exists uc', cs', h', (x :: zs). split; [done|].
        split; [congruence|]. done.
Qed.

Lemma as_bool_num h x e : of_kind EBool e -> holds h x e -> as_bool x = Ok (bits_of e =? 1).
Proof. destruct e as [s|[] z]; try done. simpl. intros [-> | ->] ->; done. Qed.
Lemma tells_bool : tells EBool same_bool.
Proof.
  intros h x y e f Ke Kf Hx Hy. unfold same_bool. rewrite (as_bool_num h x e), (as_bool_num h y f) by done. simpl.
  destruct e as [|[] z], f as [|[] z']; try done. simpl in *. destruct Ke as [-> | ->], Kf as [-> | ->]; done.
Qed.
Lemma tells_map ty k : map_kind ty = Some k -> tells k (same_map_value ty).
Proof.
  unfold map_kind. intros Hk h x y e f. unfold same_map_value.
  destruct (N.eqb_spec ty VT_MAP_INT) as [->|]; [injection Hk as <-; apply tells_int; auto|].
  destruct (N.eqb_spec ty VT_MAP_STRING) as [->|]; [injection Hk as <-; apply tells_str|].
  destruct (N.eqb_spec ty VT_MAP_FLOAT) as [->|]; [injection Hk as <-; apply tells_float|].
  destruct (N.eqb_spec ty VT_MAP_BOOL) as [->|]; [injection Hk as <-; apply tells_bool|done].
Qed.

Lemma map_unique_goes k c fp s : map_kind (d_vtype D) = Some k -> kmap_at k D c fp s ->
  runs (let! n := make_map_values_unique in mod_opt (fun o => with_count o n)) s (fun _ s' => exists fp',
    kmap_goes k D fp s (firsts (fun p q => alike k (snd q) (snd p)) [] c) fp' [] s').
Proof.
  intros Hk HA. apply runs_bind. unfold make_map_values_unique. apply runs_bind, runs_get_opt.
  pose proof HA as ((Hc & HC) & Ho & HD). destruct s as [o h lg]. simpl in *. rewrite HD.
  destruct (Nat.leb_spec (value_count o) 1) as [Hle|Hgt].
  - apply runs_ret. apply runs_mod. simpl. exists fp. rewrite short_firsts by lia.
    destruct o. split; [exact HA|]. rewrite app_nil_r. split; [apply moves_refl|]. split; [done|]. intros l []%elem_of_nil.
  - destruct HC as [(_ & -> & _)|(p & cells & Hv & Hp & Hl & Hcap & Hlen & HF & Hfp & HD')]; [simpl in Hc; lia|].
    apply runs_bind. apply runs_malloc; [done|]. set (t := length (bl h)). set (h1 := add_block h BTmp).
    apply runs_bind, runs_get_heap. cbn [h_heap].
    assert (Hp1 : bl h1 !! p = Some (Some (BMap cells))) by (by apply add_live).
    apply runs_bind. rewrite Hv. eapply runs_deref_map; [exact Hp1|].
    assert (HF1 : Forall2 (kpair k h1) (take (length c) cells) c).
    { eapply (all_ext BMap own_pair (kpair k) (kpair_ext k) (kpair_live k)); [|exact HF]. intros l Hi.
      destruct (all_live own_pair (kpair k) (kpair_live k) _ _ _ _ HF Hi) as [x Hx]. rewrite Hx. by apply add_live. }
    assert (Hcells : forall j q, c !! j = Some q -> exists y, cells !! (0 + j)%nat = Some y /\ kpair k h1 y q).
    { intros j q Hq. destruct (Forall2_lookup_r _ _ _ _ _ HF1 Hq) as (y & Hy & Hyq). exists y. split; [|done].
      apply lookup_take_Some in Hy as [Hy _]. done. }
    pose proof (mark_loop_spec k _ (tells_map _ _ Hk) h1 cells c 0 [] [] eq_refl Hcells) as HM. cbn [app] in HM.
    rewrite existsb_none in HM. apply runs_bind. rewrite Hc. eapply runs_lift; [exact HM|].
    set (sm := fun p q : cstr * elem => alike k (snd q) (snd p)) in *.
    destruct (rebuild_spec (d_vtype D) k sm (drops sm [] c) c Hk 0 0 cells h1 [] [] [] (take (length c) cells) (drop (length c) cells))
      as (uc & cs & h2 & zs & E & Hlc & Htk & Huc & HFz & M & Hoo & HNz); try done.
    { by rewrite drop_0, take_drop. }
    { subst fp. by apply NoDup_cons in HD' as [_ HD']. }
    apply runs_bind. eapply runs_lift; [exact E|]. cbv beta iota. apply runs_bind, runs_put_heap. cbn [h_opt h_log].
    cbn [app] in *.
    set (F := concat (map own_pair (take (length c) cells))) in *. set (F' := concat (map own_pair zs)) in *.
    assert (HpF : p ∉ F) by (subst fp; by apply NoDup_cons in HD' as [HD' _]).
    assert (HltF : forall l, l ∈ F -> (l < length (bl h))%nat).
    { intros l Hi. destruct (all_live own_pair (kpair k) (kpair_live k) _ _ _ _ HF Hi) as [x Hx]. by eapply live_lt. }
    assert (HtF : t ∉ F). { intros Hi. apply HltF in Hi. unfold t in Hi. lia. }
    assert (Htp : t <> p). { intros Htp. apply live_lt in Hp. unfold t in Htp. lia. }
    assert (Ht1 : bl h1 !! t = Some (Some BTmp)) by apply add_same.
    assert (Hp2 : bl h2 !! p = Some (Some (BMap cells))) by (by eapply moves_other).
    assert (Ht2 : bl h2 !! t = Some (Some BTmp)) by (by eapply moves_other).
    assert (HpF' : p ∉ F') by (eapply moves_disjoint; [exact M|done|by eapply live_lt]).
    assert (HtF' : t ∉ F') by (eapply moves_disjoint; [exact M|done|by eapply live_lt]).
    apply runs_bind. eapply runs_store; [exact Hp2|]. set (h3 := put_block h2 p (Some (BMap cs))).
    assert (Ht3 : bl h3 !! t = Some (Some BTmp)) by (unfold h3; rewrite put_other; [done|by intros ->]).
    apply runs_bind. eapply runs_free; [exact Ht3|]. apply runs_ret, runs_mod. cbn [h_opt h_heap h_log].
    set (h4 := put_block h3 t None).
    exists (p :: F').
    assert (Hlf : length zs = length (firsts sm [] c)) by (by eapply Forall2_length).
    assert (Hz4 : forall l, l ∈ F' -> bl h4 !! l = bl h2 !! l).
    { intros l Hi. unfold h4. rewrite put_other by (by intros ->). unfold h3. by rewrite put_other by (by intros ->). }
    split; [|split; [|split]].
    + split; [|split; [|done]].
      * split; [simpl in *; lia|]. right. exists p, cs. cbn [h_opt h_heap value with_count value_capacity].
        assert (length zs <= length cs)%nat. { rewrite <- Htk, take_length. lia. }
        split; [by destruct o|]. split.
        { unfold h4. rewrite put_other by (by intros ->). by eapply put_same. }
        split; [destruct o; simpl in *; lia|]. split; [by destruct o|].
        split; [simpl in *; lia|]. rewrite <- Hlf, <- Huc, Htk. split; [|split; [done|]].
        -- eapply (all_ext BMap own_pair (kpair k) (kpair_ext k) (kpair_live k)); [|exact HFz]. exact Hz4.
        -- by apply NoDup_cons.
      * cbn [h_heap]. unfold h4, h3. simpl. rewrite Hoo. done.
    + cbn [h_heap]. rewrite app_nil_r.
      apply moves_trans with (fp2 := t :: p :: F) (h2 := h1).
      { eapply (moves_in (p :: F)); [apply (moves_add h BTmp)|subst fp; clear; set_solver|fold t; clear; set_solver|].
        intros l Hi. split; [apply not_elem_of_nil|]. apply elem_of_cons in Hi as [->|Hi]; [by eapply live_lt|auto]. }
      apply moves_trans with (fp2 := t :: p :: F') (h2 := h2).
      { eapply (moves_in [t; p]); [exact M|clear; set_solver|clear; set_solver|].
        intros l Hi. apply elem_of_cons in Hi as [-> | ->%elem_of_list_singleton ]; (split; [done|by eapply live_lt]). }
      apply moves_trans with (fp2 := t :: p :: F') (h2 := h3).
      { eapply (moves_in (t :: F')); [by eapply (moves_put h2 p)|clear; set_solver|clear; set_solver|].
        intros l Hi. rewrite elem_of_list_singleton. apply elem_of_cons in Hi as [->|Hi]; (split; [|]); try done.
        - by eapply live_lt.
        - by intros ->.
        - destruct (all_live own_pair (kpair k) (kpair_live k) _ _ _ _ HFz Hi) as [x Hx]. by eapply live_lt. }
      eapply (moves_in (p :: F')); [by eapply (moves_free h3 t)|clear; set_solver|clear; set_solver|].
      intros l Hi. rewrite elem_of_list_singleton. unfold h3. rewrite put_len. apply elem_of_cons in Hi as [->|Hi]; (split; [|]).
      * by intros ->.
      * by eapply live_lt.
      * by intros ->.
      * destruct (all_live own_pair (kpair k) (kpair_live k) _ _ _ _ HFz Hi) as [x Hx]. by eapply live_lt.
    + by destruct o.
    + intros l []%elem_of_nil.
Qed.

(** ** Sorting *)
Lemma map_sort_goes {K} k (key : heap -> uval * uval -> res K) (kf : cstr * elem -> K) cmp before c fp s :
  qsort_sorts -> kmap_at k D c fp s ->
  (forall h x p, kpair k h x p -> key h x = Ok (kf p)) ->
  consistent (fun a b => cmp (kf a) (kf b)) c ->
  (forall a b, a ∈ c -> b ∈ c -> cmp (kf a) (kf b) <= 0 -> ~ before b a) ->
  runs (sort_map key cmp) s (fun _ s' => exists c' fp', kmap_goes k D fp s c' fp' [] s' /\
    Permutation c c' /\ in_sequence before c').
Proof.
  intros HQ HA Hkey Hcons Hbef. unfold sort_map. apply runs_bind, runs_get_opt.
  pose proof HA as ((Hc & HC) & Ho & HD). destruct s as [o h lg]. simpl in *.
  destruct (Nat.leb_spec (value_count o) 1) as [Hle|Hgt].
  - apply runs_ret. exists c, fp. split; [by apply goes_refl|]. split; [done|]. apply short_sequence. lia.
  - destruct HC as [(_ & -> & _)|(p & cells & Hv & Hp & Hl & Hcap & Hlen & HF & Hfp & HD')]; [simpl in Hc; lia|].
    apply runs_bind, runs_get_heap. apply runs_bind. rewrite Hv. eapply runs_deref_map; [exact Hp|].
    destruct (qsort_prefix_spec (kpair k h) (key h) kf cmp cells c HQ HF) as (cells' & c' & E & P1 & P2 & HF' & HSq).
    { lia. }
    { intros x e Hi Hx. by apply Hkey. }
    { exact Hcons. }
    apply runs_bind. rewrite Hc. eapply runs_lift; [exact E|]. eapply runs_store; [exact Hp|].
    assert (Hlc : length c' = length c) by (symmetry; by apply Permutation_length).
    assert (Hlc' : length cells' = length c') by (by eapply Forall2_length).
    set (fp' := p :: concat (map own_pair cells')).
    assert (Hfp' : Permutation fp fp'). { subst fp. constructor. by apply concat_perm. }
    exists c', fp'. split; [|split; [done|]].
    + split; [|split; [|split]].
      * split; [|done]. split; [simpl; lia|]. right. exists p, (cells' ++ drop (length c) cells). simpl.
        split; [done|]. split; [by eapply put_same|].
        split; [rewrite app_length, drop_length; lia|]. split; [done|].
        split; [rewrite app_length, drop_length; lia|].
        rewrite <- Hlc', take_app. split; [|split; [done|]].
        -- eapply (all_ext BMap own_pair (kpair k) (kpair_ext k) (kpair_live k)); [|exact HF']. intros l Hi. apply put_other. intros <-.
           subst fp. rewrite Hfp' in HD'. by apply NoDup_cons in HD' as [HD' _].
        -- by rewrite <- Hfp'.
      * simpl. rewrite app_nil_r. eapply moves_equiv; [intros l; reflexivity| |].
        { intros l. instantiate (1 := fp). by rewrite Hfp'. }
        eapply (moves_in (concat (map own_pair (take (length c) cells)))); [by eapply (moves_put h p)|subst fp; set_solver|subst fp; set_solver|].
        intros l Hi. split.
        { intros ->%elem_of_list_singleton. subst fp. by apply NoDup_cons in HD' as [HD' _]. }
        { destruct (all_live own_pair (kpair k) (kpair_live k) _ _ _ _ HF Hi) as [x Hx]. by eapply live_lt. }
      * done.
      * intros l []%elem_of_nil.
    + intros i j a b Hij Ha Hb. apply Hbef; [rewrite P2; by eapply elem_of_list_lookup_2..|]. by eapply HSq.
Qed.
Lemma consistent_map {A B} (f : A -> B) cmp l : consistent cmp (map f l) -> consistent (fun a b => cmp (f a) (f b)) l.
Proof.
  intros [C1 C2]. split; intros; [apply C1|eapply C2; try eassumption]; by apply elem_of_list_fmap_1.
Qed.
Lemma values_consistent k c : Forall (fun p => sortable k (snd p)) c -> consistent (fun a b : cstr * elem => ecmp k (snd a) (snd b)) c.
Proof. intros HS. apply (consistent_map (@snd cstr elem)), ecmp_consistent. by apply Forall_fmap. Qed.
Lemma keys_consistent c : consistent (fun a b : cstr * elem => strcmp (fst a) (fst b)) c.
Proof.
  split.
  - intros a b _ _. rewrite (strcmp_anti (fst a)). lia.
  - intros a b d _ _ _. apply strcmp_le_trans.
Qed.

(** ** The flags of a map *)
Lemma map_flags_goes k c fp s : qsort_sorts -> kmap_at k D c fp s -> map_kind (d_vtype D) = Some k ->
  (N.testbit (d_flags D) 11 = true -> Forall (fun p => sortable k (snd p)) c) ->
  runs apply_map_flags s (fun _ s' => exists c' fp', kmap_goes k D fp s c' fp' [] s' /\ map_flagged k (d_flags D) c c').
Proof.
  intros HQ HA Hk HS. pose proof HA as ((Hc & _) & Ho & HD). unfold apply_map_flags. apply runs_bind, runs_get_opt.
  rewrite HD. destruct (Nat.leb_spec (value_count (h_opt s)) 1) as [Hle|Hgt].
  { apply runs_ret. exists c, fp. split; [by apply goes_refl|]. unfold map_flagged. rewrite short_firsts by lia.
    assert ((if N.testbit (d_flags D) 13 then c else c) = c) as -> by (by destruct (N.testbit (d_flags D) 13)).
    destruct (N.testbit _ 12); [split; [done|]; apply short_sequence; lia|].
    destruct (N.testbit _ 11); [split; [done|]; apply short_sequence; lia|done]. }
  change FLAG_UNIQUE_VALUE with (2 ^ 13)%N. change FLAG_SORTED_KEY with (2 ^ 12)%N. change FLAG_SORTED_VALUE with (2 ^ 11)%N.
  rewrite !has_bit_eq. set (vt := d_vtype D) in *. unfold map_flagged.
  set (c1 := if N.testbit (d_flags D) 13 then firsts (fun p q => alike k (snd q) (snd p)) [] c else c).
  apply runs_bind. apply runs_mono with (Q := fun _ s' => exists fp', kmap_goes k D fp s c1 fp' [] s').
  { unfold c1. destruct (N.testbit (d_flags D) 13).
    - by apply map_unique_goes.
    - apply runs_ret. exists fp. by apply goes_refl. }
  intros u s1 (fp1 & G1). pose proof G1 as (HA1 & _).
  assert (Hsub : forall P : cstr * elem -> Prop, Forall P c -> Forall P c1).
  { intros P HP. unfold c1. destruct (N.testbit (d_flags D) 13); [|done].
    generalize (@nil (cstr * elem)). clear -HP. induction HP as [|x l Hx HP IH]; intros kept; simpl; [constructor|].
    destruct (existsb _ kept); [done|by constructor]. }
  assert (HW : forall (m : HM unit) (before : cstr * elem -> cstr * elem -> Prop),
    runs m s1 (fun _ s' => exists c' fp', kmap_goes k D fp1 s1 c' fp' [] s' /\ Permutation c1 c' /\ in_sequence before c') ->
    runs m s1 (fun _ s' => exists c' fp', kmap_goes k D fp s c' fp' [] s' /\ Permutation c1 c' /\ in_sequence before c')).
  { intros m before HM. eapply runs_mono; [exact HM|]. intros u' s2 (c2 & fp2 & G2 & HP). exists c2, fp2. split; [by eapply goes_then|done]. }
  destruct (N.testbit (d_flags D) 12) eqn:E12.
  - apply HW. apply (map_sort_goes k _ (fun p => Some (fst p))); try done.
    + intros h x p [[(l & Hx & Hl) _] _]. unfold read_str. rewrite Hx. simpl. unfold deref_str. simpl. by rewrite Hl.
    + apply keys_consistent.
    + intros a b _ _ Hab. rewrite <- strcmp_before. simpl in Hab. rewrite (strcmp_anti (fst b)). lia.
  - destruct (N.testbit (d_flags D) 11) eqn:E11.
    + assert (HS1 : Forall (fun p => sortable k (snd p)) c1) by (apply Hsub; auto).
      assert (HE : forall a b : cstr * elem, a ∈ c1 -> b ∈ c1 -> ecmp k (snd a) (snd b) <= 0 -> ~ precedes k (snd b) (snd a)) by (intros; by apply ecmp_precedes).
      pose proof (values_consistent k c1 HS1) as HC1.
      unfold map_kind in Hk.
      destruct (vt =? VT_MAP_INT)%N; [injection Hk as <-; apply HW; apply (map_sort_goes ELong _ (fun p => int_of (snd p))); try done|].
      { intros h x p [[_ Hx] Kp]. apply (as_int_num ELong h _ (snd p)); auto. }
      destruct (vt =? VT_MAP_STRING)%N; [injection Hk as <-; apply HW; apply (map_sort_goes EText _ (fun p => text_key (snd p))); try done|].
      { intros h x p [[_ Hx] Kp]. by apply (read_text h _ (snd p)). }
      destruct (vt =? VT_MAP_FLOAT)%N; [injection Hk as <-; apply HW; apply (map_sort_goes EFloat _ (fun p => bits_of (snd p))); try done|].
      { intros h x p [[_ Hx] Kp]. by apply (as_float_num h _ (snd p)). }
      destruct (vt =? VT_MAP_BOOL)%N; [|done]. injection Hk as <-.
      assert (HB : forall p : cstr * elem, of_kind EBool (snd p) -> Z.b2z (bits_of (snd p) =? 1) = bits_of (snd p)).
      { intros [a e] Ke. simpl in *. destruct e as [|[] z]; try done. simpl in *. by destruct Ke as [-> | ->]. }
      apply kmap_at_iff in HA1 as HA1'. destruct HA1' as [_ HP1]. unfold pairs_of in HP1. rewrite Forall_forall in HP1.
      assert (HBc : forall a b, a ∈ c1 -> b ∈ c1 -> cmp_bool (bits_of (snd a) =? 1) (bits_of (snd b) =? 1) = ecmp EBool (snd a) (snd b)).
      { intros a b Ha Hb. unfold cmp_bool. rewrite !HB by auto. done. }
      apply HW. apply (map_sort_goes EBool _ (fun p => bits_of (snd p) =? 1)); try done.
      * intros h x p [[_ Hx] Kp]. by apply (as_bool_num h _ (snd p)).
      * destruct HC1 as [C1 C2]. split.
        -- intros a b Ha Hb. rewrite !HBc by done. auto.
        -- intros a b d Ha Hb Hd. rewrite !HBc by done. by apply C2.
      * intros a b Ha Hb Hab. rewrite HBc in Hab by done. auto.
    + apply runs_ret. by exists c1, fp1.
Qed.
End flags.
