(** * A parse that succeeds while memory is scarce went as if it were ample *)
From Coq Require Import Lia.
From Verif Require Import Api LibProofs SpecGrammar SpecAfter SpecMemory SpecContents SpecSafe HeapProofs SpecReuse SpecScarce.

Lemma none_refl o : none_failed o o.
Proof. exists []. split; [done|]. intros x []%elem_of_nil. Qed.
Lemma none_trans a b c : none_failed a b -> none_failed b c -> none_failed a c.
Proof.
  intros (u & -> & Hu) (v & -> & Hv). exists (u ++ v). split; [by rewrite app_assoc|].
  intros x [Hx|Hx]%elem_of_app; auto.
Qed.

(** ** The same state with ample memory *)
Definition amh (h : heap) : heap := Heap (blocks h) [].
Definition am (s : hst) : hst := Hst (h_opt s) (amh (h_heap s)) (h_log s).
Definition size (b : block) : option nat :=
  match b with BArr cs => Some (length cs) | BMap cs => Some (length cs) | _ => None end.
(** The buffer of the option is no larger than its capacity. *)
Definition bounded (k : nat) (s : hst) : Prop :=
  forall p, value (h_opt s) = PHeap p -> (p < length (blocks (h_heap s)))%nat /\
    forall b n, blocks (h_heap s) !! p = Some (Some b) -> size b = Some n -> (n <= k)%nat.
Definition I (s : hst) : Prop := bounded (value_capacity (h_opt s)) s.
(** The buffer is missing, or full. *)
Definition stuck (s : hst) : Prop := value (h_opt s) = VNull \/
  (exists p, value (h_opt s) = PHeap p) /\ bounded (value_count (h_opt s)) s.
Definition Any (s : hst) : Prop := True.

Definition tame {A} (J : hst -> Prop) (G : A -> Prop) (m : HM A) : Prop := forall s r s',
  I s -> m s = Ok (r, s') -> G r -> m (am s) = Ok (r, am s') /\ J s' /\ none_failed (oom (h_heap s)) (oom (h_heap s')).
Definition tt1 {A} (x : A) : Prop := True.
Definition zero (st : Z) : Prop := st = 0.

Lemma tame_weak {A} (G : A -> Prop) m : tame I G m -> tame Any G m.
Proof. intros Hm s r s' HI E Hr. destruct (Hm s r s' HI E Hr) as (E1 & _ & E3). done. Qed.
Lemma tame_bind {A B} J (G1 : A -> Prop) (G : B -> Prop) (m : HM A) k : tame I G1 m ->
  (forall x, G1 x -> tame J G (k x)) -> (forall x s y s', ~ G1 x -> k x s = Ok (y, s') -> ~ G y) ->
  (forall x, G1 x \/ ~ G1 x) -> tame J G (hbind m k).
Proof.
  intros Hm Hk Hb Hd s r s' HI E Hr. unfold hbind in *. destruct (m s) as [[x s1]|] eqn:E1; [|done].
  destruct (Hd x) as [Hx|Hx]; [|by destruct (Hb x _ _ _ Hx E Hr)].
  destruct (Hm _ _ _ HI E1 Hx) as (-> & HI1 & N1). destruct (Hk x Hx _ _ _ HI1 E Hr) as (-> & HJ & N2).
  split; [done|]. split; [done|]. by eapply none_trans.
Qed.
Lemma tame_seq {A B} J (G : B -> Prop) (m : HM A) k : tame I tt1 m -> (forall x, tame J G (k x)) -> tame J G (hbind m k).
Proof. intros Hm Hk. apply (tame_bind J tt1); [done|auto| |]; intros; [|left]; done || by destruct H. Qed.
Lemma tame_ret {A} G (x : A) : tame I G (hret x).
Proof. intros s r s' HI [= <- <-] _. split; [done|]. split; [done|]. apply none_refl. Qed.
Lemma tame_lift {A} (r : res A) : tame I tt1 (hlift r).
Proof.
  intros s x s' HI E _. unfold hlift in *. destruct r; [|done]. injection E as <- <-. split; [done|]. split; [done|]. apply none_refl.
Qed.
Lemma tame_ub {A} J G u : tame J G (@hub A u).
Proof. intros s x s' HI E. done. Qed.
Lemma tame_get : tame I tt1 get_opt.
Proof. intros s x s' HI [= <- <-] _. split; [done|]. split; [done|]. apply none_refl. Qed.
Lemma tame_emit e : tame I tt1 (emit e).
Proof. intros s x s' HI [= <- <-] _. split; [done|]. split; [done|]. apply none_refl. Qed.
Lemma tame_mod f : (forall o, value (f o) = value o /\ value_capacity (f o) = value_capacity o) -> tame I tt1 (mod_opt f).
Proof.
  intros Hf s x s' HI [= <- <-] _. split; [done|]. split; [|apply none_refl]. unfold I, bounded. cbn [h_opt h_heap].
  destruct (Hf (h_opt s)) as [-> ->]. exact HI.
Qed.
Lemma tame_count f : tame I tt1 (mod_opt (fun o => with_count o (f o))).
Proof. by apply tame_mod. Qed.
Lemma tame_str v : tame I tt1 (hderef_str v).
Proof.
  intros s x s' HI E _. unfold hderef_str in *. change (deref_str v (h_heap (am s))) with (deref_str v (amh (h_heap s))).
  assert (deref_str v (amh (h_heap s)) = deref_str v (h_heap s)) as -> by (by destruct v).
  destruct (deref_str v (h_heap s)); [|done]. injection E as <- <-. split; [done|]. split; [done|]. apply none_refl.
Qed.
Lemma tame_arr v : tame I tt1 (hderef_arr v).
Proof.
  intros s x s' HI E _. unfold hderef_arr in *. change (deref_arr v (h_heap (am s))) with (deref_arr v (amh (h_heap s))).
  assert (deref_arr v (amh (h_heap s)) = deref_arr v (h_heap s)) as -> by (by destruct v).
  destruct (deref_arr v (h_heap s)); [|done]. injection E as <- <-. split; [done|]. split; [done|]. apply none_refl.
Qed.
Lemma tame_map v : tame I tt1 (hderef_map v).
Proof.
  intros s x s' HI E _. unfold hderef_map in *. change (deref_map v (h_heap (am s))) with (deref_map v (amh (h_heap s))).
  assert (deref_map v (amh (h_heap s)) = deref_map v (h_heap s)) as -> by (by destruct v).
  destruct (deref_map v (h_heap s)); [|done]. injection E as <- <-. split; [done|]. split; [done|]. apply none_refl.
Qed.

(** ** Changing blocks *)
Lemma free_cases v h h' : free v h = Ok h' -> oom h' = oom h /\ free v (amh h) = Ok (amh h') /\
  length (blocks h') = length (blocks h) /\
  forall p b, blocks h' !! p = Some (Some b) -> blocks h !! p = Some (Some b).
Proof.
  unfold free, amh. destruct v as [[] z| |l|]; cbn [blocks]; try done.
  - destruct (z =? 0); [|done]. by intros [= <-].
  - destruct (blocks h !! l) as [[b|]|] eqn:El; try done. intros [= <-]. cbn. split; [done|]. split; [done|].
    rewrite insert_length. split; [done|]. intros p b' Hp. apply list_lookup_insert_Some in Hp as [(_ & ? & _)|[_ ?]]; done.
Qed.
Lemma tame_free v : tame I tt1 (hfree v).
Proof.
  intros s x s' HI E _. unfold hfree in *. destruct (free v (h_heap s)) as [h'|] eqn:Ef; [|done]. injection E as <- <-.
  destruct (free_cases _ _ _ Ef) as (E1 & E2 & E3 & E4). cbn [am h_heap]. rewrite E2. split; [done|].
  split; [|cbn [h_heap]; rewrite E1; apply none_refl]. intros p Hp. cbn [h_opt h_heap] in *. destruct (HI p Hp) as [H1 H2].
  split; [lia|]. intros b n Hb. apply H2. auto.
Qed.
Lemma store_cases v b h h' : store v b h = Ok h' -> oom h' = oom h /\ store v b (amh h) = Ok (amh h') /\
  exists l b0, v = PHeap l /\ blocks h !! l = Some (Some b0) /\ blocks h' = <[l := Some b]> (blocks h).
Proof.
  unfold store, amh. destruct v as [[] z| |l|]; cbn [blocks]; try done.
  - by destruct (z =? 0).
  - destruct (blocks h !! l) as [[b0|]|] eqn:El; try done. intros [= <-]. cbn. eauto 10.
Qed.
Lemma store_bounded k v b h h' o lg : store v b h = Ok h' ->
  (forall b0, deref v h = Ok b0 -> size b = size b0) -> bounded k (Hst o h lg) -> bounded k (Hst o h' lg).
Proof.
  intros E Hs HB. apply store_cases in E as (_ & _ & l & b0 & -> & El & Eb). intros p Hp. cbn [h_opt h_heap] in *.
  destruct (HB p Hp) as [H1 H2]. cbn [h_heap] in *. rewrite Eb, insert_length. split; [done|]. intros b1 n Hb1 Hn.
  apply list_lookup_insert_Some in Hb1 as [(<- & [= <-] & _)|[_ Hb1]]; [|by eapply H2].
  apply (H2 b0 n El). rewrite <- (Hs b0); [done|]. cbn. by rewrite El.
Qed.
Lemma set_cell_length {A} (l l' : list A) i x : set_cell l i x = Ok l' -> length l' = length l.
Proof. unfold set_cell. destruct (l !! i); [|done]. intros [= <-]. apply insert_length. Qed.
Lemma arr_write_cases p i x s u s' : arr_write p i x s = Ok (u, s') ->
  arr_write p i x (am s) = Ok (u, am s') /\ oom (h_heap s') = oom (h_heap s) /\
  (forall k, bounded k s -> bounded k s') /\ h_opt s' = h_opt s.
Proof.
  unfold arr_write, hbind, hderef_arr, hlift, hstore. cbn [am h_heap h_opt h_log].
  assert (deref_arr p (amh (h_heap s)) = deref_arr p (h_heap s)) as -> by (by destruct p).
  destruct (deref_arr p (h_heap s)) as [cs|] eqn:Ed; [|done]. destruct (set_cell cs i x) as [cs'|] eqn:Es; [|done].
  destruct (store p (BArr cs') (h_heap s)) as [h'|] eqn:Et; [|done]. intros [= <- <-].
  destruct (store_cases _ _ _ _ Et) as (E1 & E2 & _). cbn [am h_heap h_opt h_log]. rewrite E2. split; [done|]. split; [done|]. split; [|done].
  intros k. destruct s as [o h lg]. apply (store_bounded k p (BArr cs')); [done|]. intros b0 Hb0. unfold deref_arr in Ed. cbn [h_heap] in Ed.
  rewrite Hb0 in Ed. cbn [rbind] in Ed. destruct b0; try done. injection Ed as ->. cbn. by rewrite (set_cell_length _ _ _ _ Es).
Qed.
Lemma map_write_cases p i x s u s' : map_write p i x s = Ok (u, s') ->
  map_write p i x (am s) = Ok (u, am s') /\ oom (h_heap s') = oom (h_heap s) /\
  (forall k, bounded k s -> bounded k s') /\ h_opt s' = h_opt s.
Proof.
  unfold map_write, hbind, hderef_map, hlift, hstore. cbn [am h_heap h_opt h_log].
  assert (deref_map p (amh (h_heap s)) = deref_map p (h_heap s)) as -> by (by destruct p).
  destruct (deref_map p (h_heap s)) as [cs|] eqn:Ed; [|done]. destruct (set_cell cs i x) as [cs'|] eqn:Es; [|done].
  destruct (store p (BMap cs') (h_heap s)) as [h'|] eqn:Et; [|done]. intros [= <- <-].
  destruct (store_cases _ _ _ _ Et) as (E1 & E2 & _). cbn [am h_heap h_opt h_log]. rewrite E2. split; [done|]. split; [done|]. split; [|done].
  intros k. destruct s as [o h lg]. apply (store_bounded k p (BMap cs')); [done|]. intros b0 Hb0. unfold deref_map in Ed. cbn [h_heap] in Ed.
  rewrite Hb0 in Ed. cbn [rbind] in Ed. destruct b0; try done. injection Ed as ->. cbn. by rewrite (set_cell_length _ _ _ _ Es).
Qed.
Lemma tame_arr_write p i x : tame I tt1 (arr_write p i x).
Proof.
  intros s u s' HI E _. destruct (arr_write_cases _ _ _ _ _ _ E) as (E1 & E2 & E3 & E4). split; [done|].
  split; [|rewrite E2; apply none_refl]. unfold I. rewrite E4. by apply E3.
Qed.
Lemma tame_map_write p i x : tame I tt1 (map_write p i x).
Proof.
  intros s u s' HI E _. destruct (map_write_cases _ _ _ _ _ _ E) as (E1 & E2 & E3 & E4). split; [done|].
  split; [|rewrite E2; apply none_refl]. unfold I. rewrite E4. by apply E3.
Qed.

(** ** Allocating *)
Definition got {A} (r : option A) : Prop := is_Some r.
Lemma got_dec {A} (r : option A) : got r \/ ~ got r.
Proof. destruct r; [left; by eexists|right; by intros [? ?]]. Qed.
Lemma malloc_bounded k b h o lg : bounded k (Hst o h lg) -> bounded k (Hst o (snd (malloc b h)) lg).
Proof.
  intros HB p Hp. destruct (HB p Hp) as [H1 H2]. cbn [h_heap h_opt] in *. unfold malloc.
  destruct (oom h) as [|[] oo]; cbn [snd blocks]; [| done |]; rewrite app_length; (split; [lia|]);
    intros b' n Hb; rewrite lookup_app_l in Hb by done; by apply H2.
Qed.
Lemma tame_malloc b : tame I got (hmalloc b).
Proof.
  intros s r s' HI E Hr. unfold hmalloc in *. destruct (malloc b (h_heap s)) as [r1 h1] eqn:Em. injection E as <- <-.
  assert (HB : I (Hst (h_opt s) h1 (h_log s))).
  { destruct s as [o h lg]. cbn in *. pose proof (malloc_bounded _ b h o lg HI) as X. rewrite Em in X. exact X. }
  unfold malloc in *. cbn [am h_heap amh oom blocks h_opt h_log]. destruct (oom (h_heap s)) as [|[] oo] eqn:Eo; injection Em as <- <-.
  - split; [done|]. split; [done|]. apply none_refl.
  - by destruct Hr.
  - split; [done|]. split; [done|]. exists [false]. split; [done|]. by intros x ->%elem_of_list_singleton.
Qed.

Lemma ends {A B} (m : HM A) (y y' : B) s s' : (m ;;; hret y) s = Ok (y', s') -> y' = y.
Proof. unfold hbind. destruct (m s) as [[? ?]|]; [|done]. by intros [= <- _]. Qed.
Lemma tame_one {A} (G : A -> Prop) x s y s' : ~ G x -> hret x s = Ok (y, s') -> ~ G y.
Proof. by intros Hx [= <- _]. Qed.

(** ** Cutting at commas *)
Lemma tame_split_loop p : forall n tmp cs i, tame I (eq true) (split_loop p tmp cs i n).
Proof.
  induction n as [|n IH]; intros tmp cs i; cbn [split_loop]; [apply tame_ret|]. cbv zeta.
  apply (tame_bind I got); [apply tame_malloc| | |apply got_dec].
  - intros x [l ->]. apply tame_seq; [apply tame_arr_write|]. intros _. apply IH.
  - intros [l|] s y s' Hx; [by destruct Hx; eexists|]. by intros ->%ends.
Qed.
Lemma tame_split v cs : tame I got (split v cs).
Proof.
  unfold split. apply (tame_bind I got); [apply tame_malloc| | |apply got_dec].
  - intros x [l ->]. apply (tame_bind I (eq true)); [apply tame_split_loop| | |].
    + intros ? <-. apply tame_seq; [apply tame_arr_write|]. intros _. apply tame_ret.
    + intros [] s y s' Hx; [by destruct Hx|]. intros [= <- <-]. by intros [? ?].
    + intros []; auto.
  - intros [l|] s y s' Hx; [by destruct Hx; eexists|]. intros [= <- <-]. by intros [? ?].
Qed.
Lemma tame_for_words cells body : (forall w, tame I zero (body w)) -> tame I zero (for_words cells body).
Proof.
  intros Hb. induction cells as [|x cells IH]; cbn [for_words]; [apply tame_ub|].
  apply tame_seq; [apply tame_lift|]. intros []; [apply tame_ret|]. apply tame_seq; [apply tame_str|]. intros w.
  apply (tame_bind I zero); [apply Hb| | |].
  - intros ? ->. exact IH.
  - intros st s y s' Hx. destruct (Z.eqb_spec st SUCCESS); [done|]. by intros [= <- _].
  - intros st. unfold zero. lia.
Qed.
Lemma tame_free_words cells : tame I tt1 (free_words cells).
Proof.
  induction cells as [|x cells IH]; cbn [free_words]; [apply tame_ub|].
  apply tame_seq; [apply tame_lift|]. intros []; [apply tame_ret|]. apply tame_seq; [apply tame_free|]. intros _. exact IH.
Qed.
Lemma tame_free_split p : tame I tt1 (free_split p).
Proof.
  unfold free_split. apply tame_seq; [apply tame_arr|]. intros cells. apply tame_seq; [apply tame_free_words|]. intros _.
  apply tame_free.
Qed.

(** ** Making room *)
Section room.
Context (fresh : nat -> block) (grow : nat -> block -> res block).
Hypothesis fresh_size : forall n, size (fresh n) = Some n.
Hypothesis grow_size : forall n b b', grow n b = Ok b' -> size b' = Some n.
Lemma adjust_cases s u s' : I s -> adjust_size fresh grow s = Ok (u, s') ->
  (adjust_size fresh grow (am s) = Ok (u, am s') /\ I s' /\ none_failed (oom (h_heap s)) (oom (h_heap s'))) \/ stuck s'.
Proof using fresh_size grow_size.
  intros HI. unfold adjust_size, hbind, get_opt, hlift. cbn [am h_opt].
  destruct (is_null (value (h_opt s))) as [z|] eqn:Ez; [|done]. destruct z.
  { unfold hmalloc, malloc, mod_opt. cbn [am h_opt h_heap h_log amh oom blocks]. destruct (oom (h_heap s)) as [|[] oo] eqn:Eo; intros [= <- <-].
    - left. split; [done|]. split; [|apply none_refl]. intros p [= <-]. cbn [h_heap h_opt blocks with_value with_capacity value_capacity].
      rewrite app_length. cbn. split; [lia|]. intros b n Hb Hn. rewrite lookup_app_r, Nat.sub_diag in Hb by done. injection Hb as <-.
      rewrite fresh_size in Hn. injection Hn as <-. done.
    - right. left. done.
    - left. split; [done|]. split; [|exists [false]; split; [done|]; by intros x ->%elem_of_list_singleton].
      intros p [= <-]. cbn [h_heap h_opt blocks with_value with_capacity value_capacity].
      rewrite app_length. cbn. split; [lia|]. intros b n Hb Hn. rewrite lookup_app_r, Nat.sub_diag in Hb by done. injection Hb as <-.
      rewrite fresh_size in Hn. injection Hn as <-. done. }
  destruct (Nat.leb_spec (value_capacity (h_opt s)) (value_count (h_opt s))) as [Hle|Hlt].
  2:{ intros [= <- <-]. left. split; [done|]. split; [done|]. apply none_refl. }
  unfold hrealloc. cbn [am h_opt h_heap h_log]. destruct (value (h_opt s)) as [[] z|t|p|] eqn:Ev; cbn [realloc]; try done.
  cbn [amh blocks]. destruct (blocks (h_heap s) !! p) as [[b|]|] eqn:Eb; try done.
  destruct (grow (value_capacity (h_opt s) * 2) b) as [b'|] eqn:Eg; cbn [rbind]; [|done].
  pose proof (grow_size _ _ _ Eg) as Hsz. destruct (HI p Ev) as [Hp Hin].
  unfold malloc, mod_opt. cbn [amh oom blocks]. destruct (oom (h_heap s)) as [|[] oo] eqn:Eo; intros [= <- <-].
  - left. split; [done|]. split; [|apply none_refl]. intros q [= <-]. cbn [h_heap h_opt blocks with_value with_capacity value_capacity].
    rewrite insert_length, app_length. cbn. split; [lia|]. intros b1 n Hb Hn.
    rewrite list_lookup_insert_ne, lookup_app_r, Nat.sub_diag in Hb by lia. injection Hb as <-. rewrite Hsz in Hn. injection Hn as <-. done.
  - right. right. split; [by exists p|]. intros q Hq. cbn [h_opt h_heap blocks] in *. assert (q = p) as -> by congruence. split; [done|].
    intros b1 n Hb Hn. specialize (Hin _ _ Hb Hn). cbn in Hin. lia.
  - left. split; [done|]. split; [|exists [false]; split; [done|]; by intros x ->%elem_of_list_singleton].
    intros q [= <-]. cbn [h_heap h_opt blocks with_value with_capacity value_capacity].
    rewrite insert_length, app_length. cbn. split; [lia|]. intros b1 n Hb Hn.
    rewrite list_lookup_insert_ne, lookup_app_r, Nat.sub_diag in Hb by lia. injection Hb as <-. rewrite Hsz in Hn. injection Hn as <-. done.
Qed.
Lemma tame_adjust {B} J (G : B -> Prop) (k : HM B) : tame J G k ->
  (forall s y s', stuck s -> k s = Ok (y, s') -> ~ G y) -> tame J G (adjust_size fresh grow ;;; k).
Proof using fresh_size grow_size.
  intros Hk Hb s y s' HI E Hy. unfold hbind in *. destruct (adjust_size fresh grow s) as [[u s1]|] eqn:E1; [|done].
  destruct (adjust_cases _ _ _ HI E1) as [(-> & HI1 & N1)|Hs]; [|by destruct (Hb _ _ _ Hs E)].
  destruct (Hk _ _ _ HI1 E Hy) as (-> & HJ & N2). split; [done|]. split; [done|]. by eapply none_trans.
Qed.
End room.
Lemma arr_sizes n : size (BArr (replicate n Indet)) = Some n.
Proof. cbn. by rewrite replicate_length. Qed.
Lemma map_sizes n : size (BMap (replicate n (Indet, Indet))) = Some n.
Proof. cbn. by rewrite replicate_length. Qed.
Lemma grow_arr_size n b b' : grow_arr n b = Ok b' -> size b' = Some n.
Proof. destruct b; try done. intros [= <-]. cbn. rewrite app_length, take_length, replicate_length. f_equal. lia. Qed.
Lemma grow_map_size n b b' : grow_map n b = Ok b' -> size b' = Some n.
Proof. destruct b; try done. intros [= <-]. cbn. rewrite app_length, take_length, replicate_length. f_equal. lia. Qed.
Definition tame_adjust_arr {B} J (G : B -> Prop) k := tame_adjust _ _ arr_sizes grow_arr_size J G k.
Definition tame_adjust_map {B} J (G : B -> Prop) k := tame_adjust _ _ map_sizes grow_map_size J G k.

Lemma set_cell_full {A} (l : list A) i x : (length l <= i)%nat -> set_cell l i x = UB OutOfBounds.
Proof. intros Hi. unfold set_cell. by rewrite lookup_ge_None_2. Qed.
Lemma stuck_push x s r : stuck s -> push_value x s = Ok r -> False.
Proof.
  unfold push_value, arr_write, hbind, get_opt, hderef_arr, hlift. intros [Hv|[[p Hv] HB]]; rewrite Hv; cbn [deref_arr deref rbind]; [done|].
  destruct (HB p Hv) as [_ H2]. unfold deref_arr. cbn [deref]. destruct (blocks (h_heap s) !! p) as [[b|]|] eqn:Eb; cbn [rbind]; try done.
  destruct b; try done. rewrite set_cell_full; [done|]. by eapply H2.
Qed.
Lemma stuck_push_pair k v s r : stuck s -> push_pair k v s = Ok r -> False.
Proof.
  unfold push_pair, map_write, hbind, get_opt, hderef_map, hlift. intros [Hv|[[p Hv] HB]]; rewrite Hv; cbn [deref_map deref rbind]; [done|].
  destruct (HB p Hv) as [_ H2]. unfold deref_map. cbn [deref]. destruct (blocks (h_heap s) !! p) as [[b|]|] eqn:Eb; cbn [rbind]; try done.
  destruct b; try done. rewrite set_cell_full; [done|]. by eapply H2.
Qed.
Lemma stuck_push_then {B} x (k : unit -> HM B) s r : stuck s -> hbind (push_value x) k s = Ok r -> False.
Proof. intros Hs. unfold hbind. destruct (push_value x s) as [[? ?]|] eqn:E; [|done]. by eapply stuck_push in E. Qed.
Lemma stuck_pair_then {B} x y (k : unit -> HM B) s r : stuck s -> hbind (push_pair x y) k s = Ok r -> False.
Proof. intros Hs. unfold hbind. destruct (push_pair x y s) as [[? ?]|] eqn:E; [|done]. by eapply stuck_push_pair in E. Qed.
Lemma tame_push x : tame I tt1 (push_value x).
Proof.
  unfold push_value. apply tame_seq; [apply tame_get|]. intros o. apply tame_seq; [apply tame_arr_write|]. intros _. by apply tame_mod.
Qed.
Lemma tame_push_pair k v : tame I tt1 (push_pair k v).
Proof.
  unfold push_pair. apply tame_seq; [apply tame_get|]. intros o. apply tame_seq; [apply tame_map_write|]. intros _. by apply tame_mod.
Qed.

(** ** Elements *)
Lemma tame_range n : forall i, tame I tt1 (add_range_values i n).
Proof.
  induction n as [|n IH]; intros i; cbn [add_range_values]; [apply tame_ret|].
  apply tame_adjust_arr.
  - apply tame_seq; [apply tame_push|]. intros _. destruct (i =? INT_MAX); [apply tame_ub|apply IH].
  - intros s y s' Hs E. by eapply stuck_push_then in E.
Qed.
Lemma tame_set_int v : tame I zero (set_value_int v).
Proof.
  unfold set_value_int. destruct (parse_int_range v) as [[s e]|].
  - apply tame_seq; [apply tame_range|]. intros _. apply tame_ret.
  - apply tame_seq; [apply tame_emit|]. intros _. apply tame_ret.
Qed.
Lemma tame_set_float `{Libc} v : tame I zero (set_value_float v).
Proof.
  unfold set_value_float. apply tame_adjust_arr.
  - apply tame_seq; [apply tame_push|]. intros _. apply tame_ret.
  - intros s y s' Hs E. by eapply stuck_push_then in E.
Qed.
Lemma tame_set_string v : tame I zero (set_value_string v).
Proof.
  unfold set_value_string. apply tame_adjust_arr.
  - apply tame_seq; [apply tame_get|]. intros o. destruct (value_capacity o =? 0)%nat; [apply tame_ret|].
    apply (tame_bind I got); [apply tame_malloc| | |apply got_dec].
    + intros x [l ->]. apply tame_seq; [apply tame_push|]. intros _. apply tame_ret.
    + intros [l|] s y s' Hx; [by destruct Hx; eexists|]. by intros [= <- _].
  - intros s y s' Hs E. unfold hbind at 1, get_opt in E. destruct (value_capacity (h_opt s) =? 0)%nat; [by injection E as <- _|].
    unfold hbind at 1, hmalloc in E. destruct (malloc (BStr v) (h_heap s)) as [[l|] h1] eqn:Em; [|by injection E as <- _].
    exfalso. eapply stuck_push_then; [|exact E]. destruct Hs as [Hv|[Hv HB]]; [by left|right]. split; [done|].
    destruct s as [o h lg]. pose proof (malloc_bounded _ (BStr v) h o lg HB) as X. cbn [h_heap] in Em. by rewrite Em in X.
Qed.
Lemma tame_int_value v : tame I zero (set_int_value v).
Proof.
  unfold set_int_value. destruct (strtoll v) as [x rest]. apply tame_adjust_arr.
  - apply tame_seq; [apply tame_get|]. intros o. destruct (value_capacity o =? 0)%nat; [apply tame_ret|].
    destruct rest; [|apply tame_ret]. destruct (length v =? 0)%nat; [apply tame_ret|].
    apply tame_seq; [apply tame_push|]. intros _. apply tame_ret.
  - intros s y s' Hs E. unfold hbind at 1, get_opt in E. destruct (value_capacity (h_opt s) =? 0)%nat; [by injection E as <- _|].
    destruct rest; [|by injection E as <- _]. destruct (length v =? 0)%nat; [by injection E as <- _|]. by eapply stuck_push_then in E.
Qed.
Lemma tame_float_value `{Libc} v : tame I zero (set_float_value v).
Proof.
  unfold set_float_value. destruct (strtod v) as [x n]. apply tame_adjust_arr.
  - apply tame_seq; [apply tame_get|]. intros o. destruct (value_capacity o =? 0)%nat; [apply tame_ret|].
    destruct (_ || _); [apply tame_ret|]. apply tame_seq; [apply tame_push|]. intros _. apply tame_ret.
  - intros s y s' Hs E. unfold hbind at 1, get_opt in E. destruct (value_capacity (h_opt s) =? 0)%nat; [by injection E as <- _|].
    destruct (_ || _); [by injection E as <- _|]. by eapply stuck_push_then in E.
Qed.
Lemma read_str_am h v : read_str (amh h) v = read_str h v.
Proof. by destruct v. Qed.
Lemma find_am h cs k n : forall i, map_find_key_loop (amh h) cs k i n = map_find_key_loop h cs k i n.
Proof.
  induction n as [|n IH]; intros i; cbn [map_find_key_loop]; [done|]. destruct (cell cs i); cbn [rbind]; [|done].
  rewrite read_str_am. destruct (read_str _ _) as [[?|]|]; cbn [rbind]; [|by apply IH|done]. destruct (_ =? 0); [done|apply IH].
Qed.
Lemma tame_find k : tame I tt1 (map_find_key k).
Proof.
  unfold map_find_key. apply tame_seq; [apply tame_get|]. intros o. destruct (value_count o =? 0)%nat; [apply tame_ret|].
  apply tame_seq; [apply tame_map|]. intros cs s x s' HI E _. unfold hbind, get_heap in *. cbn [am h_heap]. rewrite find_am.
  by apply (tame_lift (map_find_key_loop (h_heap s) cs k 0 (value_count o)) s x s').
Qed.
Lemma tame_set_map i v : tame I tt1 (set_map_value i v).
Proof.
  unfold set_map_value. apply tame_seq; [apply tame_get|]. intros o. apply tame_seq; [apply tame_map|]. intros cs.
  apply tame_seq; [apply tame_lift|]. intros kv. apply tame_map_write.
Qed.
Lemma tame_scalar kind hint conv v : tame I zero (set_kv_scalar kind hint conv v).
Proof.
  unfold set_kv_scalar. destruct (strchr v equal_sign) as [n|].
  2:{ apply tame_seq; [apply tame_emit|]. intros _. apply tame_ret. }
  apply (tame_bind I got); [apply tame_malloc| | |apply got_dec].
  - intros x [l ->]. destruct (conv _) as [x|].
    2:{ apply tame_seq; [apply tame_emit|]. intros _. apply tame_ret. }
    apply tame_seq; [apply tame_find|]. intros [i|].
    + apply tame_seq; [apply tame_set_map|]. intros _. apply tame_ret.
    + apply tame_adjust_map.
      * apply tame_seq; [apply tame_push_pair|]. intros _. apply tame_ret.
      * intros s y s' Hs E. by eapply stuck_pair_then in E.
  - intros [l|] s y s' Hx; [by destruct Hx; eexists|]. by intros ->%ends.
Qed.
Lemma tame_kv_string v : tame I zero (set_kv_string v).
Proof.
  unfold set_kv_string. destruct (strchr v equal_sign) as [n|].
  2:{ apply tame_seq; [apply tame_emit|]. intros _. apply tame_ret. }
  apply (tame_bind I got); [apply tame_malloc| | |apply got_dec].
  - intros x [l ->]. apply (tame_bind I got); [apply tame_malloc| | |apply got_dec].
    + intros x [l' ->]. apply tame_seq; [apply tame_find|]. intros [i|].
      * apply tame_seq; [apply tame_get|]. intros o. apply tame_seq; [apply tame_map|]. intros cs. apply tame_seq; [apply tame_lift|].
        intros kv. apply tame_seq; [apply tame_free|]. intros _. apply tame_seq; [apply tame_set_map|]. intros _. apply tame_ret.
      * apply tame_adjust_map.
        -- apply tame_seq; [apply tame_push_pair|]. intros _. apply tame_ret.
        -- intros s y s' Hs E. by eapply stuck_pair_then in E.
    + intros [l'|] s y s' Hx; [by destruct Hx; eexists|]. unfold hbind at 1. destruct (hfree (PHeap l) s) as [[? ?]|]; [|done]. by intros ->%ends.
  - intros [l|] s y s' Hx; [by destruct Hx; eexists|]. by intros ->%ends.
Qed.
