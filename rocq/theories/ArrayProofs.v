(** * The array handlers *)
From Coq Require Import Lia.
From stdpp Require Import sets.
From Verif Require Import Api LibProofs FrameProofs SpecGrammar SpecAfter SpecMemory HeapProofs SplitProofs ListProofs OrderProofs.

Notation arr_at := (at_state BArr own holds).
Notation arr_goes := (goes BArr own holds).

Lemma arr_inj c1 c2 : BArr c1 = BArr c2 -> c1 = c2.
Proof. by injection 1. Qed.
Lemma arr_lt o h c fp l : array_of o h c fp -> l ∈ fp -> (l < length (bl h))%nat.
Proof. intros HC Hl. eapply coll_lt; [exact holds_live|exact HC|done]. Qed.
Lemma arr_moves o h h' c fp fp1 fp2 : moves fp1 h fp2 h' -> (forall l, l ∈ fp -> l ∉ fp1) ->
  array_of o h c fp -> array_of o h' c fp.
Proof. intros M Hd HC. eapply coll_moves; [exact holds_ext|exact holds_live|exact M|done|exact HC]. Qed.
Lemma num_own k e : of_kind k e -> k <> EText -> forall h x, holds h x e -> own x = [].
Proof. intros Hk Hn h x Hx. destruct e as [s|w z]; [by destruct k|]. simpl in Hx. by subst x. Qed.

Section flags.
Variable D : decl.

(** ** Adding elements *)
Lemma adjust_goes c fp s : arr_at D c fp s ->
  runs adjust_array_size s (fun _ s' => exists fp', arr_goes D fp s c fp' [] s' /\
    (value_count (h_opt s') < value_capacity (h_opt s'))%nat /\ exists p, value (h_opt s') = PHeap p).
Proof.
  intros (HC & Ho & HD). destruct s as [o h lg]. simpl in *.
  eapply runs_mono; [apply (adjust_spec BArr own holds holds_ext holds_live _ _ Indet); [done|done|exact HC|done]|].
  intros _ s' (o' & h' & fp' & -> & HC' & M & Ho' & HM & Hroom & Hv). exists fp'. simpl.
  destruct HM as (Hd & Ha & Hs). split; [|done]. split; [|split; [by rewrite app_nil_r|split]].
  - split; [done|]. split; [done|]. simpl. congruence.
  - done.
  - intros l []%elem_of_nil.
Qed.

Lemma push_goes x e c fp s p : arr_at D c fp s -> value (h_opt s) = PHeap p ->
  (value_count (h_opt s) < value_capacity (h_opt s))%nat -> holds (h_heap s) x e ->
  (forall l, l ∈ own x -> l ∉ fp) ->
  runs (push_value x) s (fun _ s' => arr_goes D (fp ++ own x) s (c ++ [e]) (fp ++ own x) [] s').
Proof.
  intros (HC & Ho & HD) Hv Hroom Hx Hdis. destruct s as [o h lg]. simpl in *.
  unfold push_value. apply runs_bind, runs_get_opt. simpl. unfold arr_write.
  apply runs_bind, runs_bind. rewrite Hv.
  assert (exists cells, bl h !! p = Some (Some (BArr cells))) as [cells Hp].
  { destruct HC as [_ [(Hv' & _)|(p' & cells & Hv' & Hp & _)]]; [by rewrite Hv' in Hv|]. exists cells. congruence. }
  eapply runs_deref_arr; [exact Hp|].
  assert (HN : NoDup (own x)). { destruct x; simpl; try constructor; [set_solver|constructor]. }
  destruct (coll_push BArr own holds holds_ext holds_live o h c fp p x e cells) as [[y Hy] (HC' & M & Ho')]; try done.
  { apply arr_inj. }
  apply runs_bind. eapply runs_lift; [unfold set_cell; rewrite Hy; reflexivity|].
  eapply runs_store; [exact Hp|]. apply runs_mod. simpl.
  split; [|split; [by rewrite app_nil_r|split]].
  - split; [done|]. split; [simpl; congruence|]. done.
  - done.
  - intros l []%elem_of_nil.
Qed.

(** Add a number. *)
Lemma append_goes x e c fp s : arr_at D c fp s -> own x = [] -> (forall h, holds h x e) ->
  runs (adjust_array_size ;;; push_value x) s (fun _ s' => exists fp', arr_goes D fp s (c ++ [e]) fp' [] s').
Proof.
  intros HA Hown Hx. apply runs_bind. eapply runs_mono; [by apply adjust_goes|].
  intros _ s1 (fp1 & G1 & Hroom & p & Hv). pose proof G1 as (HA1 & _).
  eapply runs_mono; [apply (push_goes x e c fp1 s1 p); try done|].
  - rewrite Hown. intros l []%elem_of_nil.
  - intros u2 s2 G2. cbv beta in G2. rewrite Hown, app_nil_r in G2. exists fp1.
    by eapply goes_then.
Qed.

(** What one piece of a list text contributes; None = refused. *)
Definition range_elems (a : Z) (n : nat) : list elem := map (fun i => Num W4 ((a + Z.of_nat i) mod two32)) (seq 0 n).
Definition int_piece (w : cstr) : option (list elem) :=
  match parse_int_range w with
  | None => None
  | Some (a, b) => Some (range_elems a (Z.to_nat (b - a + 1)))
  end.
Definition post_of (sem : cstr -> option (list elem)) (c : list elem) (w : cstr) (st : Z) (c' : list elem) (lk : list nat) : Prop :=
  lk = [] /\ ((st = 0 /\ exists es, sem w = Some es /\ c' = c ++ es) \/ (st <> 0 /\ sem w = None /\ c' = c)).

Lemma string_handles : handles BArr own holds D set_value_string (post_of (fun w => Some [Text w])) (fun _ => True).
Proof.
  intros s c fp w HA _. unfold set_value_string. apply runs_bind.
  eapply runs_mono; [by apply adjust_goes|]. intros _ s1 (fp1 & G1 & Hroom & p & Hv).
  apply runs_bind, runs_get_opt. destruct (Nat.eqb_spec (value_capacity (h_opt s1)) 0) as [|_]; [lia|].
  apply runs_bind. destruct s1 as [o1 h1 lg1]. simpl in *. pose proof G1 as ((HC1 & Ho1 & HD1) & M1 & S1 & _). simpl in *.
  apply runs_malloc; [done|]. apply runs_bind. set (l := length (bl h1)).
  assert (Hl : l ∉ fp1). { intros Hi. pose proof (arr_lt _ _ _ _ _ HC1 Hi). unfold l in *. lia. }
  set (s2 := Hst o1 (add_block h1 (BStr w)) lg1).
  assert (HA2 : arr_at D c fp1 s2).
  { split; [|done]. simpl. eapply arr_moves; [apply moves_add| |exact HC1]. intros l' _ []%elem_of_nil. }
  eapply runs_mono; [apply (push_goes (PHeap l) (Text w) c fp1 s2 p)|].
  - done.
  - done.
  - done.
  - simpl. exists l. split; [done|]. apply add_same.
  - simpl. set_solver.
  - intros u3 s3 G3. cbv beta in G3. apply runs_ret. exists (c ++ [Text w]), (fp1 ++ [l]), []. split.
    + destruct G3 as (A3 & M3 & S3 & _). split; [done|]. split; [|split].
      * rewrite app_nil_r in *. eapply moves_trans; [exact M1|]. eapply moves_trans; [|exact M3].
        simpl. eapply (moves_in fp1); [apply moves_add|intros l'; rewrite elem_of_nil; tauto|intros l'; rewrite elem_of_app; done|].
        intros l' Hl'. split; [intros []%elem_of_nil|]. exact (arr_lt _ _ _ _ _ HC1 Hl').
      * destruct S1 as (?&?&?), S3 as (?&?&?). simpl in *. repeat split; congruence.
      * intros l' []%elem_of_nil.
    + split; [done|]. left. split; [done|]. eexists. done.
Qed.
Lemma float_handles `{Libc} : handles BArr own holds D set_value_float (post_of (fun w => Some [Num W8 (strtof w mod two64)])) (fun _ => True).
Proof.
  intros s c fp w HA _. unfold set_value_float.
  enough (runs ((adjust_array_size ;;; push_value (of_float (strtof w))) ;;; hret SUCCESS) s (fun st s' => exists c' fp' lk,
    arr_goes D fp s c' fp' lk s' /\ post_of (fun w => Some [Num W8 (strtof w mod two64)]) c w st c' lk)) as HH.
  { unfold runs, hbind in *. destruct HH as (st & s' & Hr & HQ). exists st, s'. split; [|done].
    destruct (adjust_array_size s) as [[? ?]|]; done. }
  apply runs_bind. eapply runs_mono; [apply (append_goes _ (Num W8 (strtof w mod two64))); [done|done|]|].
  - intros h. simpl. reflexivity.
  - intros _ s' (fp' & G). apply runs_ret. exists (c ++ [Num W8 (strtof w mod two64)]), fp', []. split; [done|].
    split; [done|]. left. split; [done|]. eexists. done.
Qed.

Lemma range_S a n : range_elems a (S n) = Num W4 (a mod two32) :: range_elems (a + 1) n.
Proof.
  unfold range_elems. simpl. f_equal; [by rewrite Z.add_0_r|]. rewrite <- seq_shift, map_map.
  apply map_ext. intros i. do 2 f_equal. lia.
Qed.
Lemma range_goes n : forall a c fp s, arr_at D c fp s -> a + Z.of_nat n - 1 < INT_MAX ->
  runs (add_range_values a n) s (fun _ s' => exists fp', arr_goes D fp s (c ++ range_elems a n) fp' [] s').
Proof.
  induction n as [|n IH]; intros a c fp s HA Hlt; simpl.
  - apply runs_ret. exists fp. rewrite app_nil_r. by apply goes_refl.
  - enough (runs ((adjust_array_size ;;; push_value (of_int a)) ;;; (if a =? INT_MAX then hub SignedOverflow else add_range_values (a + 1) n)) s
      (fun _ s' => exists fp', arr_goes D fp s (c ++ range_elems a (S n)) fp' [] s')) as HH.
    { unfold runs, hbind in *. destruct HH as (st & s' & Hr & HQ). exists st, s'. split; [|done].
      destruct (adjust_array_size s) as [[? ?]|]; done. }
    apply runs_bind. eapply runs_mono; [apply (append_goes _ (Num W4 (a mod two32))); [done|done|]|].
    + intros h. simpl. reflexivity.
    + intros _ s1 (fp1 & G1). rewrite (proj2 (Z.eqb_neq a INT_MAX)) by lia.
      eapply runs_mono; [apply (IH (a + 1) (c ++ [Num W4 (a mod two32)]) fp1); [by destruct G1|lia]|].
      intros _ s2 (fp2 & G2). exists fp2. rewrite <- app_assoc in G2. simpl in G2. rewrite range_S.
      by eapply goes_then.
Qed.
Definition int_ok (w : cstr) : Prop := forall a b, parse_int_range w = Some (a, b) -> b < INT_MAX.
Lemma parse_int_range_le w a b : parse_int_range w = Some (a, b) -> a <= b.
Proof.
  unfold parse_int_range. destruct (search_range_separator None w 0).
  - intros [= <- <-]. lia.
  - destruct (strtoll w) as [x []]; intros [= <- <-]. lia.
Qed.
Lemma int_handles : handles BArr own holds D set_value_int (post_of int_piece) int_ok.
Proof.
  intros s c fp w HA Hok. unfold set_value_int. unfold post_of, int_piece.
  destruct (parse_int_range w) as [[a b]|] eqn:E.
  - apply runs_bind. pose proof (parse_int_range_le _ _ _ E). specialize (Hok _ _ E).
    eapply runs_mono; [apply range_goes; [done|lia]|]. intros _ s' (fp' & G). apply runs_ret.
    eexists _, fp', []. split; [exact G|]. split; [done|]. left. split; [done|]. eauto.
  - apply runs_bind. apply runs_emit. apply runs_ret. exists c, fp, []. split.
    + destruct HA as (HC & Ho & HD). destruct s as [o h lg]. split; [done|]. rewrite app_nil_r. split; [apply moves_refl|].
      split; [done|]. intros l []%elem_of_nil.
    + split; [done|]. right. done.
Qed.

(** ** Sorting *)
Lemma Forall2_perm {X Y} (P : X -> Y -> Prop) xs xs' : Permutation xs xs' -> forall ys, Forall2 P xs ys ->
  exists ys', Permutation ys ys' /\ Forall2 P xs' ys'.
Proof.
  induction 1 as [|x xs xs' Hp IH|x y xs|xs1 xs2 xs3 H1 IH1 H2 IH2]; intros ys HF.
  - exists ys. inversion HF. subst. split; [done|constructor].
  - inversion HF as [|? y ? ys' Hxy HF']; subst. destruct (IH _ HF') as (zs & Hz & HFz).
    exists (y :: zs). split; [by constructor|by constructor].
  - inversion HF as [|? a ? ys1 Ha HF1]; subst. inversion HF1 as [|? b ? ys2 Hb HF2]; subst.
    exists (b :: a :: ys2). split; [constructor|]. by constructor; [|constructor].
  - destruct (IH1 _ HF) as (zs & Hz & HFz). destruct (IH2 _ HFz) as (us & Hu & HFu).
    exists us. split; [by etrans|done].
Qed.
Lemma concat_perm {X} (f : X -> list nat) xs xs' : Permutation xs xs' -> Permutation (concat (map f xs)) (concat (map f xs')).
Proof.
  induction 1 as [|x xs xs' Hp IH|x y xs|xs1 xs2 xs3 H1 IH1 H2 IH2]; simpl.
  - done.
  - by apply Permutation_app_head.
  - rewrite !app_assoc. apply Permutation_app_tail, Permutation_app_comm.
  - by etrans.
Qed.
End flags.

(** The cells hold the elements, with keys as given. *)
Lemma map_res_keys {X Y K} (P : X -> Y -> Prop) (key : X -> res K) (kf : Y -> K) xs ys :
  Forall2 P xs ys -> (forall x y, y ∈ ys -> P x y -> key x = Ok (kf y)) ->
  exists ks, map_res (fun x => let* k := key x in Ok (k, x)) xs = Ok ks /\
    Forall2 (fun kx y => fst kx = kf y /\ P (snd kx) y) ks ys /\ map snd ks = xs.
Proof.
  induction 1 as [|x y xs ys Hxy HF IH]; intros Hk; simpl.
  - exists []. split; [done|]. split; [constructor|done].
  - destruct IH as (ks & E & HF' & Hs).
    { intros x' y' Hi. apply Hk. by right. }
    rewrite (Hk x y) by (done || left). simpl. rewrite E. simpl. exists ((kf y, x) :: ks).
    split; [done|]. split; [|simpl; by rewrite Hs]. constructor; [done|done].
Qed.
(** Sorting the cells sorts the elements. *)
Lemma qsort_prefix_spec `{Libc} {X Y K} (P : X -> Y -> Prop) (key : X -> res K) (kf : Y -> K) (cmp : K -> K -> Z) cells ys :
  qsort_sorts -> Forall2 P (take (length ys) cells) ys -> (length ys <= length cells)%nat ->
  (forall x y, y ∈ ys -> P x y -> key x = Ok (kf y)) ->
  consistent (fun a b => cmp (kf a) (kf b)) ys ->
  exists cells' ys', qsort_prefix key cmp (length ys) cells = Ok (cells' ++ drop (length ys) cells) /\
    Permutation (take (length ys) cells) cells' /\ Permutation ys ys' /\ Forall2 P cells' ys' /\
    forall i j a b, (i < j)%nat -> ys' !! i = Some a -> ys' !! j = Some b -> cmp (kf a) (kf b) <= 0.
Proof.
  intros HQ HF Hlen Hkey HC. unfold qsort_prefix.
  destruct (Nat.ltb_spec (length cells) (length ys)); [lia|].
  destruct (map_res_keys P key kf _ _ HF Hkey) as (ks & E & HFk & Hs). rewrite E. simpl.
  set (pc := fun a b : K * X => cmp (fst a) (fst b)).
  assert (Hof : forall kx, kx ∈ ks -> exists y, y ∈ ys /\ fst kx = kf y).
  { intros kx Hi. apply elem_of_list_lookup in Hi as (i & Hi).
    destruct (Forall2_lookup_l _ _ _ _ _ HFk Hi) as (y & Hy & Hk & _). exists y. split; [|done].
    by eapply elem_of_list_lookup_2. }
  assert (HCk : consistent pc ks).
  { destruct HC as [HC1 HC2]. split; unfold pc.
    - intros a b Ha Hb. destruct (Hof _ Ha) as (x & Hx & ->). destruct (Hof _ Hb) as (y & Hy & ->). by apply HC1.
    - intros a b c Ha Hb Hc. destruct (Hof _ Ha) as (x & Hx & ->). destruct (Hof _ Hb) as (y & Hy & ->).
      destruct (Hof _ Hc) as (z & Hz & ->). by apply HC2. }
  destruct (HQ _ pc ks HCk) as [Hperm Hsorted].
  destruct (Forall2_perm _ _ _ Hperm _ HFk) as (ys' & Hys & HF').
  exists (map snd (qsort (K * X) pc ks)), ys'. split; [done|]. split.
  { rewrite <- Hs. by apply Permutation_map. }
  split; [done|]. split.
  - clear -HF'. induction HF' as [|kx y ks' ys' [_ Hp] HF IH]; constructor; done.
  - intros i j a b Hij Ha Hb.
    destruct (Forall2_lookup_r _ _ _ _ _ HF' Ha) as (ka & Hka & Ea & _).
    destruct (Forall2_lookup_r _ _ _ _ _ HF' Hb) as (kb & Hkb & Eb & _).
    rewrite <- Ea, <- Eb. exact (Hsorted i j ka kb Hij Hka Hkb).
Qed.
