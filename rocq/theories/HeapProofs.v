(** * Reasoning about handler programs and the heap *)
From Coq Require Import Lia.
From stdpp Require Import sets.
From Verif Require Import Api LibProofs FrameProofs SpecGrammar SpecAfter SpecMemory.

(** ** Runs of handler programs without undefined behaviour *)
Definition runs {A} (m : HM A) (s : hst) (Q : A -> hst -> Prop) : Prop :=
  exists a s', m s = Ok (a, s') /\ Q a s'.

Lemma runs_ret {A} (a : A) s (Q : A -> hst -> Prop) : Q a s -> runs (hret a) s Q.
Proof. intros. by exists a, s. Qed.
Lemma runs_bind {A B} (m : HM A) (k : A -> HM B) s Q :
  runs m s (fun a s' => runs (k a) s' Q) -> runs (hbind m k) s Q.
Proof.
  intros (a & s' & E & b & s'' & E' & HQ). exists b, s''. split; [|done].
  unfold hbind. by rewrite E.
Qed.
Lemma runs_mono {A} (m : HM A) s (Q R : A -> hst -> Prop) :
  runs m s Q -> (forall a s', Q a s' -> R a s') -> runs m s R.
Proof. intros (a & s' & E & HQ) HR. exists a, s'. auto. Qed.
Lemma runs_lift {A} (r : res A) a s (Q : A -> hst -> Prop) : r = Ok a -> Q a s -> runs (hlift r) s Q.
Proof. intros -> ?. by exists a, s. Qed.
Lemma runs_get_opt s (Q : opt -> hst -> Prop) : Q (h_opt s) s -> runs get_opt s Q.
Proof. intros. by exists (h_opt s), s. Qed.
Lemma runs_get_heap s (Q : heap -> hst -> Prop) : Q (h_heap s) s -> runs get_heap s Q.
Proof. intros. by exists (h_heap s), s. Qed.
Lemma runs_mod f s (Q : unit -> hst -> Prop) : Q tt (Hst (f (h_opt s)) (h_heap s) (h_log s)) -> runs (mod_opt f) s Q.
Proof. intros. by eexists _, _. Qed.
Lemma runs_put_heap h s (Q : unit -> hst -> Prop) : Q tt (Hst (h_opt s) h (h_log s)) -> runs (put_heap h) s Q.
Proof. intros. by eexists _, _. Qed.
Lemma runs_emit e s (Q : unit -> hst -> Prop) : Q tt (Hst (h_opt s) (h_heap s) (h_log s ++ [e])) -> runs (emit e) s Q.
Proof. intros. by eexists _, _. Qed.

(** ** Heap operations *)

Notation bl h := (blocks h).
Definition put_block (h : heap) (l : nat) (b : option block) : heap :=
  Heap (<[l := b]> (blocks h)) (oom h).
Definition add_block (h : heap) (b : block) : heap := Heap (blocks h ++ [Some b]) (oom h).

Lemma runs_malloc b o h lg (Q : option nat -> hst -> Prop) : oom h = [] ->
  Q (Some (length (bl h))) (Hst o (add_block h b) lg) -> runs (hmalloc b) (Hst o h lg) Q.
Proof.
  intros Ho HQ. eexists _, _. split; [|exact HQ]. unfold hmalloc, malloc, add_block. simpl. by rewrite Ho.
Qed.
Lemma runs_free l b o h lg (Q : unit -> hst -> Prop) : bl h !! l = Some (Some b) ->
  Q tt (Hst o (put_block h l None) lg) -> runs (hfree (PHeap l)) (Hst o h lg) Q.
Proof. intros Hl HQ. eexists _, _. split; [|exact HQ]. unfold hfree, free. simpl. by rewrite Hl. Qed.
Lemma runs_free_null o h lg (Q : unit -> hst -> Prop) : Q tt (Hst o h lg) -> runs (hfree VNull) (Hst o h lg) Q.
Proof. intros HQ. eexists _, _. by split. Qed.
Lemma runs_store l b b' o h lg (Q : unit -> hst -> Prop) : bl h !! l = Some (Some b) ->
  Q tt (Hst o (put_block h l (Some b')) lg) -> runs (hstore (PHeap l) b') (Hst o h lg) Q.
Proof. intros Hl HQ. eexists _, _. split; [|exact HQ]. unfold hstore, store. simpl. by rewrite Hl. Qed.
Lemma runs_realloc l b b' grow o h lg (Q : option nat -> hst -> Prop) : oom h = [] ->
  bl h !! l = Some (Some b) -> grow b = Ok b' ->
  Q (Some (length (bl h))) (Hst o (put_block (add_block h b') l None) lg) ->
  runs (hrealloc (PHeap l) grow) (Hst o h lg) Q.
Proof.
  intros Ho Hl Hg HQ. eexists _, _. split; [|exact HQ]. unfold hrealloc, realloc. simpl. rewrite Hl, Hg. simpl.
  unfold malloc. rewrite Ho. simpl. unfold put_block, add_block. simpl. by rewrite Ho.
Qed.
Lemma runs_deref_str l x o h lg (Q : cstr -> hst -> Prop) : bl h !! l = Some (Some (BStr x)) ->
  Q x (Hst o h lg) -> runs (hderef_str (PHeap l)) (Hst o h lg) Q.
Proof. intros Hl HQ. eexists _, _. split; [|exact HQ]. unfold hderef_str, deref_str, deref. simpl. by rewrite Hl. Qed.
Lemma runs_deref_arr l x o h lg (Q : list uval -> hst -> Prop) : bl h !! l = Some (Some (BArr x)) ->
  Q x (Hst o h lg) -> runs (hderef_arr (PHeap l)) (Hst o h lg) Q.
Proof. intros Hl HQ. eexists _, _. split; [|exact HQ]. unfold hderef_arr, deref_arr, deref. simpl. by rewrite Hl. Qed.
Lemma runs_deref_map l x o h lg (Q : list (uval * uval) -> hst -> Prop) : bl h !! l = Some (Some (BMap x)) ->
  Q x (Hst o h lg) -> runs (hderef_map (PHeap l)) (Hst o h lg) Q.
Proof. intros Hl HQ. eexists _, _. split; [|exact HQ]. unfold hderef_map, deref_map, deref. simpl. by rewrite Hl. Qed.

Lemma live_lt (h : heap) l b : bl h !! l = Some b -> (l < length (bl h))%nat.
Proof. apply lookup_lt_Some. Qed.
Lemma put_same h l b b' : bl h !! l = Some b' -> bl (put_block h l b) !! l = Some b.
Proof. intros. apply list_lookup_insert. by eapply lookup_lt_Some. Qed.
Lemma put_other h l l' b : l <> l' -> bl (put_block h l b) !! l' = bl h !! l'.
Proof. intros. by apply list_lookup_insert_ne. Qed.
Lemma put_len h l b : length (bl (put_block h l b)) = length (bl h).
Proof. apply insert_length. Qed.
Lemma put_oom h l b : oom (put_block h l b) = oom h.
Proof. done. Qed.
Lemma add_same h b : bl (add_block h b) !! length (bl h) = Some (Some b).
Proof. unfold add_block. simpl. by rewrite lookup_app_r, Nat.sub_diag by done. Qed.
Lemma add_other h b l : (l < length (bl h))%nat -> bl (add_block h b) !! l = bl h !! l.
Proof. intros. unfold add_block. simpl. by apply lookup_app_l. Qed.
Lemma add_live h b l x : bl h !! l = Some x -> bl (add_block h b) !! l = Some x.
Proof. intros Hl. rewrite add_other; [done|]. by eapply live_lt. Qed.
Lemma add_len h b : length (bl (add_block h b)) = S (length (bl h)).
Proof. unfold add_block. simpl. rewrite app_length. simpl. lia. Qed.
Lemma add_oom h b : oom (add_block h b) = oom h.
Proof. done. Qed.

(** ** Moves *)
Lemma moves_refl fp h : moves fp h fp h.
Proof.
  split; auto. intros l b Hl. destruct (decide (l ∈ fp)); [by left|right]. split; [done|]. by eapply live_lt.
Qed.
Lemma moves_trans fp1 h1 fp2 h2 fp3 h3 : moves fp1 h1 fp2 h2 -> moves fp2 h2 fp3 h3 -> moves fp1 h1 fp3 h3.
Proof.
  intros [L1 F1 O1 V1] [L2 F2 O2 V2]. split; [lia|..].
  - intros l Hl Hn. rewrite F2, F1; auto; [lia|]. intros Hi. apply O1 in Hi as [|]; [done|lia].
  - intros l Hl. apply O2 in Hl as [Hl|]; [|right; lia]. by apply O1 in Hl.
  - intros l b Hl. destruct (V2 _ _ Hl) as [|[Hn Hlt]]; [by left|].
    rewrite F2 in Hl by done. destruct (V1 _ _ Hl) as [|]; [done|by right].
Qed.
(** The order in which blocks are listed does not matter. *)
Lemma moves_equiv fp1 h fp2 h' fp1' fp2' : (forall l, l ∈ fp1 <-> l ∈ fp1') -> (forall l, l ∈ fp2 <-> l ∈ fp2') ->
  moves fp1 h fp2 h' -> moves fp1' h fp2' h'.
Proof.
  intros E1 E2 [L F O V]. split; [done|..].
  - intros l Hl Hn. apply F; [done|]. by rewrite E1.
  - intros l Hl. rewrite <- E1. apply O. by rewrite E2.
  - intros l b Hl. rewrite <- E2, <- E1. eauto.
Qed.
Lemma moves_frame R fp h fp' h' : (forall l, l ∈ R -> l ∉ fp /\ (l < length (bl h))%nat) ->
  moves fp h fp' h' -> moves (R ++ fp) h (R ++ fp') h'.
Proof.
  intros HR [L F O V]. split; [done|..].
  - intros l Hl Hn. apply F; [done|]. set_solver.
  - intros l Hl. apply elem_of_app in Hl as [Hl|Hl]; [set_solver|]. apply O in Hl. set_solver.
  - intros l b Hl. destruct (V _ _ Hl) as [|[Hn Hlt]]; [set_solver|].
    destruct (decide (l ∈ R)); [set_solver|]. right. split; [set_solver|done].
Qed.
(** A block of others is unchanged. *)
Lemma moves_other fp h fp' h' l b : moves fp h fp' h' -> l ∉ fp -> bl h !! l = Some b -> bl h' !! l = Some b.
Proof. intros [L F O V] Hn Hl. rewrite F; auto. by eapply live_lt. Qed.
Lemma moves_disjoint fp h fp' h' l : moves fp h fp' h' -> l ∉ fp -> (l < length (bl h))%nat -> l ∉ fp'.
Proof. intros [L F O V] Hn Hl Hi. apply O in Hi as [|]; [done|lia]. Qed.

Lemma moves_add h b : moves [] h [length (bl h)] (add_block h b).
Proof.
  split.
  - rewrite add_len. lia.
  - intros l Hl _. by apply add_other.
  - intros l ->%elem_of_list_singleton. right. lia.
  - intros l b' Hl. pose proof (live_lt _ _ _ Hl) as Hlt. rewrite add_len in Hlt.
    destruct (decide (l = length (bl h))); [left; set_solver|right]. split; [set_solver|lia].
Qed.
Lemma moves_put h l b b' : bl h !! l = Some b' -> moves [l] h [l] (put_block h l (Some b)).
Proof.
  intros Hl. split.
  - by rewrite put_len.
  - intros l' _ Hn. apply put_other. set_solver.
  - auto.
  - intros l' x Hx. destruct (decide (l' = l)); [left; set_solver|right]. split; [set_solver|].
    apply live_lt in Hx. by rewrite put_len in Hx.
Qed.
Lemma moves_free h l b : bl h !! l = Some b -> moves [l] h [] (put_block h l None).
Proof.
  intros Hl. split.
  - by rewrite put_len.
  - intros l' _ Hn. apply put_other. set_solver.
  - intros ? []%elem_of_nil.
  - intros l' x Hx. destruct (decide (l' = l)) as [->|].
    { erewrite put_same in Hx by done. done. }
    right. split; [set_solver|]. apply live_lt in Hx. by rewrite put_len in Hx.
Qed.
(** Steps in the context of other owned blocks [R]. *)
Lemma moves_in (R fp : list nat) h fp' h' (F F' : list nat) : moves fp h fp' h' ->
  (forall l, l ∈ F <-> l ∈ R \/ l ∈ fp) -> (forall l, l ∈ F' <-> l ∈ R \/ l ∈ fp') ->
  (forall l, l ∈ R -> l ∉ fp /\ (l < length (bl h))%nat) -> moves F h F' h'.
Proof.
  intros M E1 E2 HR. eapply moves_equiv; [..|apply (moves_frame R _ _ _ _ HR M)];
    intros l; rewrite elem_of_app; symmetry; auto.
Qed.

(** ** Cells and elements *)
Lemma holds_ext h h' x e : (forall l, l ∈ own x -> bl h' !! l = bl h !! l) -> holds h x e -> holds h' x e.
Proof.
  destruct e; simpl; [|done]. intros E (l & -> & Hl). exists l. split; [done|]. rewrite E; [done|]. simpl. set_solver.
Qed.
Lemma holds_pair_ext h h' x p : (forall l, l ∈ own_pair x -> bl h' !! l = bl h !! l) ->
  holds_pair h x p -> holds_pair h' x p.
Proof.
  intros E [H1 H2]. unfold own_pair in E. split; (eapply holds_ext; [|eassumption]); intros l Hl; apply E; set_solver.
Qed.
Lemma holds_live h x e l : holds h x e -> l ∈ own x -> exists s, bl h !! l = Some (Some (BStr s)).
Proof.
  destruct e; simpl.
  - intros (l' & -> & Hl) Hi. apply elem_of_list_singleton in Hi as ->. eauto.
  - intros -> Hi. by apply elem_of_nil in Hi.
Qed.
Lemma holds_pair_live h x p l : holds_pair h x p -> l ∈ own_pair x -> exists s, bl h !! l = Some (Some (BStr s)).
Proof. intros [H1 H2] Hi. apply elem_of_app in Hi as [Hi|Hi]; eauto using holds_live. Qed.

Lemma elem_concat_map {A} (f : A -> list nat) (l : list A) x : x ∈ concat (map f l) <-> exists a, a ∈ l /\ x ∈ f a.
Proof.
  induction l as [|a l IH]; simpl.
  - split; [intros []%elem_of_nil|]. intros (? & []%elem_of_nil & _).
  - rewrite elem_of_app, IH. setoid_rewrite elem_of_cons. naive_solver.
Qed.

Section collection.
Context {A E : Type} (blk : list A -> block) (ow : A -> list nat) (hd : heap -> A -> E -> Prop).
Hypothesis hd_ext : forall h h' x e, (forall l, l ∈ ow x -> bl h' !! l = bl h !! l) -> hd h x e -> hd h' x e.
Hypothesis hd_live : forall h x e l, hd h x e -> l ∈ ow x -> exists s, bl h !! l = Some (Some (BStr s)).
Notation coll := (collection blk ow hd).

Lemma all_ext h h' xs c : (forall l, l ∈ concat (map ow xs) -> bl h' !! l = bl h !! l) ->
  Forall2 (hd h) xs c -> Forall2 (hd h') xs c.
Proof.
  intros Hx HF. eapply Forall2_impl; [|intros ? ? HP; exact HP].
  revert Hx. induction HF as [|x e xs c Hxe HF IH]; intros Hx; constructor.
  - eapply hd_ext; [|done]. intros l Hl. apply Hx. simpl. set_solver.
  - apply IH. intros l Hl. apply Hx. simpl. set_solver.
Qed.
Lemma all_live h xs c l : Forall2 (hd h) xs c -> l ∈ concat (map ow xs) -> exists s, bl h !! l = Some (Some (BStr s)).
Proof.
  intros HF Hl. apply elem_concat_map in Hl as (x & Hx & Hl).
  apply elem_of_list_lookup in Hx as (i & Hi).
  destruct (Forall2_lookup_l _ _ _ _ _ HF Hi) as (e & _ & He). eauto.
Qed.
(** The blocks of a collection are alive. *)
Lemma coll_live o h c fp l : coll o h c fp -> l ∈ fp -> exists b, bl h !! l = Some (Some b).
Proof.
  intros [_ [(_ & _ & ->)|(p & cells & _ & Hp & _ & _ & _ & HF & -> & _)]] Hl; [by apply elem_of_nil in Hl|].
  apply elem_of_cons in Hl as [->|Hl]; [eauto|]. destruct (all_live _ _ _ _ HF Hl). eauto.
Qed.
Lemma coll_lt o h c fp l : coll o h c fp -> l ∈ fp -> (l < length (bl h))%nat.
Proof. intros HC Hl. destruct (coll_live _ _ _ _ _ HC Hl). by eapply live_lt. Qed.
(** A collection survives changes of blocks it does not own. *)
Lemma coll_ext o h h' c fp : (forall l, l ∈ fp -> bl h' !! l = bl h !! l) -> coll o h c fp -> coll o h' c fp.
Proof.
  intros Hx [Hc [HN|(p & cells & Hv & Hp & Hl & Hcap & Hlen & HF & Hfp & HD)]]; split; [done|by left|done|].
  right. exists p, cells. split_and!; try done.
  - rewrite Hx; [done|]. subst fp. set_solver.
  - eapply all_ext; [|done]. intros l Hi. apply Hx. subst fp. set_solver.
Qed.
Lemma coll_moves o h h' c fp fp1 fp2 : moves fp1 h fp2 h' -> (forall l, l ∈ fp -> l ∉ fp1) ->
  coll o h c fp -> coll o h' c fp.
Proof.
  intros M Hd HC. eapply coll_ext; [|done]. intros l Hl. destruct M as [L F O V].
  apply F; [|auto]. by eapply coll_lt.
Qed.
(** Only value, count and capacity matter. *)
Lemma coll_same o o' h c fp : value o' = value o -> value_count o' = value_count o ->
  value_capacity o' = value_capacity o -> coll o h c fp -> coll o' h c fp.
Proof. unfold collection. intros -> -> ->. done. Qed.
Lemma coll_nodup o h c fp : coll o h c fp -> NoDup fp.
Proof. intros [_ [(_ & _ & ->)|(?&?&_&_&_&_&_&_&_&?)]]; [constructor|done]. Qed.
Lemma coll_count o h c fp : coll o h c fp -> value_count o = length c.
Proof. by intros [? _]. Qed.

(** What a handler leaves alone in its option. *)
Definition same_marks (o o' : opt) : Prop :=
  decl_of o' = decl_of o /\ is_allocated o' = is_allocated o /\ is_set o' = is_set o.

(** Adding one element to a collection that has room. *)
Lemma coll_push o h c fp p x e cells : coll o h c fp -> value o = PHeap p -> (value_count o < value_capacity o)%nat ->
  bl h !! p = Some (Some (blk cells)) -> (forall c1 c2, blk c1 = blk c2 -> c1 = c2) ->
  hd h x e -> (forall l, l ∈ ow x -> l ∉ fp) -> NoDup (ow x) ->
  is_Some (cells !! value_count o) /\
  let h' := put_block h p (Some (blk (<[value_count o := x]> cells))) in
  coll (with_count o (S (value_count o))) h' (c ++ [e]) (fp ++ ow x) /\
  moves (fp ++ ow x) h (fp ++ ow x) h' /\ oom h' = oom h.
Proof.
  intros [Hc HC] Hv Hroom Hp Hinj Hx Hd HN.
  destruct HC as [(Hv' & -> & ->)|(p' & cells' & Hv' & Hp' & Hl & Hcap & Hlen & HF & Hfp & HD)]; [by rewrite Hv' in Hv|].
  assert (p' = p) as -> by congruence. assert (cells' = cells) as -> by (apply Hinj; congruence).
  assert (Hk : (value_count o < length cells)%nat) by lia.
  split; [by apply lookup_lt_is_Some|]. intros h'.
  assert (Htk : take (length (c ++ [e])) (<[value_count o := x]> cells) = take (length c) cells ++ [x]).
  { rewrite app_length. simpl. rewrite Nat.add_comm. simpl. rewrite <- Hc.
    erewrite take_S_r by (by apply list_lookup_insert).
    by rewrite take_insert by lia. }
  assert (Hpx : p ∉ ow x). { intros Hi. apply Hd in Hi. apply Hi. subst fp. set_solver. }
  split; [|split; [|done]].
  - split; [simpl; rewrite app_length; simpl; lia|]. right. exists p, (<[value_count o := x]> cells).
    split; [done|]. split; [unfold h'; by erewrite put_same|]. split; [by rewrite insert_length|].
    split; [done|]. split; [rewrite app_length, insert_length; simpl; lia|]. rewrite Htk.
    assert (Hfp' : fp ++ ow x = p :: concat (map ow (take (length c) cells ++ [x]))).
    { rewrite map_app, concat_app. simpl. rewrite app_nil_r. by subst fp. }
    split; [|split; [done|]].
    + apply Forall2_app.
      * eapply all_ext; [|done]. intros l Hi. unfold h'. apply put_other. intros ->. subst fp.
        by apply NoDup_cons in HD as [HD _].
      * constructor; [|constructor]. eapply hd_ext; [|done]. intros l Hi. unfold h'. apply put_other. by intros ->.
    + apply NoDup_app. split; [done|]. split; [|done].
      intros l Hi Hi2. by apply Hd in Hi2.
  - eapply (moves_in (concat (map ow (take (length c) cells)) ++ ow x)); [by eapply (moves_put h p)|subst fp; set_solver|subst fp; set_solver|].
    intros l Hi. split.
    + intros ->%elem_of_list_singleton. subst fp. apply NoDup_cons in HD as [HD _]. set_solver.
    + apply elem_of_app in Hi as [Hi|Hi]; [destruct (all_live _ _ _ _ HF Hi) as [y Hy]|destruct (hd_live _ _ _ _ Hx Hi) as [y Hy]]; by eapply live_lt.
Qed.

(** ** Making room *)
Variable fresh_blk : nat -> block.
Variable grow_blk : nat -> block -> res block.
Variable blank_cell : A.
Hypothesis fresh_spec : forall cap, fresh_blk cap = blk (replicate cap blank_cell).
Hypothesis grow_spec : forall cap cs, grow_blk cap (blk cs) = Ok (blk (take cap cs ++ replicate (cap - length cs) blank_cell)).

Lemma adjust_spec o h lg c fp : coll o h c fp -> oom h = [] ->
  runs (adjust_size fresh_blk grow_blk) (Hst o h lg) (fun _ s' => exists o' h' fp',
    s' = Hst o' h' lg /\ coll o' h' c fp' /\ moves fp h fp' h' /\ oom h' = [] /\ same_marks o o' /\
    (value_count o' < value_capacity o')%nat /\ exists p, value o' = PHeap p).
Proof.
  intros [Hc HC] Ho. unfold adjust_size. apply runs_bind, runs_get_opt. simpl h_opt.
  destruct HC as [(Hv & -> & ->)|(p & cells & Hv & Hp & Hl & Hcap & Hlen & HF & Hfp & HD)].
  - apply runs_bind. eapply runs_lift; [rewrite Hv; reflexivity|]. simpl.
    apply runs_bind. apply runs_malloc; [done|]. apply runs_mod. simpl.
    eexists _, _, _. split; [done|]. split; [|split; [apply moves_add|]].
    + split; [done|]. right. eexists _, _. split; [done|]. split; [rewrite add_same, fresh_spec; done|].
      split; [by rewrite replicate_length|]. simpl. split; [unfold INITIAL_CAPACITY; lia|]. split; [lia|].
      split; [constructor|]. split; [done|]. apply NoDup_singleton.
    + split; [done|]. split; [done|]. simpl. rewrite Hc. unfold INITIAL_CAPACITY. split; [simpl; lia|eauto].
  - apply runs_bind. eapply runs_lift; [rewrite Hv; reflexivity|]. simpl. rewrite Hv.
    destruct (Nat.leb_spec (value_capacity o) (value_count o)) as [Hle|Hlt].
    + apply runs_bind. eapply runs_realloc; [done|done|apply grow_spec|]. apply runs_mod. simpl.
      assert (Hpl : (p < length (bl h))%nat) by (by eapply live_lt).
      set (cells' := take (value_capacity o * 2) cells ++ replicate (value_capacity o * 2 - length cells) blank_cell).
      assert (Htk : take (length c) cells' = take (length c) cells).
      { unfold cells'. rewrite (take_ge cells) by lia. rewrite take_app_le by done. done. }
      set (h1 := add_block h (blk cells')).
      assert (Hn : p <> length (bl h)) by lia.
      assert (Ho1 : forall l, l ∈ concat (map ow (take (length c) cells)) -> bl (put_block h1 p None) !! l = bl h !! l).
      { intros l Hi. rewrite put_other; [|intros ->; subst fp; apply NoDup_cons in HD as [HD _]; done].
        unfold h1. rewrite add_other; [done|]. destruct (all_live _ _ _ _ HF Hi). by eapply live_lt. }
      eexists _, _, (length (bl h) :: concat (map ow (take (length c) cells))).
      split; [done|]. split; [|split].
      * split; [done|]. right. exists (length (bl h)), cells'. split; [done|].
        split; [rewrite put_other by done; unfold h1; apply add_same|].
        split; [unfold cells'; simpl; rewrite app_length, replicate_length, take_length; lia|]. simpl.
        split; [lia|]. split; [unfold cells'; rewrite app_length, replicate_length, take_length; lia|].
        rewrite Htk. split; [eapply all_ext; [exact Ho1|done]|]. split; [done|].
        subst fp. apply NoDup_cons in HD as [HD1 HD2]. apply NoDup_cons. split; [|done].
        intros Hi. destruct (all_live _ _ _ _ HF Hi) as [x Hx]. apply live_lt in Hx. lia.
      * assert (HM1 : moves [p] h [length (bl h)] (put_block h1 p None)).
        { assert (HM1 : moves [p] h [p; length (bl h)] h1).
          { eapply (moves_in [p]); [apply (moves_add h (blk cells'))|set_solver|set_solver|].
            intros l ->%elem_of_list_singleton. split; [set_solver|done]. }
          assert (HM2 : moves [p; length (bl h)] h1 [length (bl h)] (put_block h1 p None)).
          { eapply (moves_in [length (bl h)]); [apply (moves_free h1 p (Some (blk cells)))|set_solver|set_solver|].
            - unfold h1. by apply add_live.
            - intros l ->%elem_of_list_singleton. split; [set_solver|]. unfold h1. rewrite add_len. lia. }
          eapply moves_trans; done. }
        eapply (moves_in (concat (map ow (take (length c) cells)))); [exact HM1|subst fp; set_solver|set_solver|].
        intros l Hi. split.
        { intros ->%elem_of_list_singleton. subst fp. by apply NoDup_cons in HD as [HD _]. }
        { destruct (all_live _ _ _ _ HF Hi) as [x Hx]. by eapply live_lt. }
      * split; [done|]. split; [done|]. simpl. split; [lia|eauto].
    + apply runs_ret. eexists _, _, fp. split; [done|]. split; [|split; [apply moves_refl|]].
      * split; [done|]. right. exists p, cells. done.
      * split; [done|]. split; [done|]. split; [done|eauto].
Qed.

End collection.
