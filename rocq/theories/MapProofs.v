(** * The map handlers: pairs *)
From Coq Require Import Lia.
From stdpp Require Import sets.
From Verif Require Import Api LibProofs FrameProofs SpecGrammar GrammarProofs SpecAfter SpecMemory SpecContents HeapProofs SplitProofs
  ListProofs OrderProofs ArrayProofs FlagProofs.

Notation map_at := (at_state BMap own_pair holds_pair).
Notation map_goes := (goes BMap own_pair holds_pair).

Lemma map_inj c1 c2 : BMap c1 = BMap c2 -> c1 = c2.
Proof. by injection 1. Qed.
Lemma map_lt o h c fp l : map_of o h c fp -> l ∈ fp -> (l < length (bl h))%nat.
Proof. intros HC Hl. eapply coll_lt; [exact holds_pair_live|exact HC|done]. Qed.
Lemma map_moves o h h' c fp fp1 fp2 : moves fp1 h fp2 h' -> (forall l, l ∈ fp -> l ∉ fp1) ->
  map_of o h c fp -> map_of o h' c fp.
Proof. intros M Hd HC. eapply coll_moves; [exact holds_pair_ext|exact holds_pair_live|exact M|done|exact HC]. Qed.

Lemma Forall2_impl_in {X Y} (P Q : X -> Y -> Prop) xs ys :
  Forall2 P xs ys -> (forall x y, x ∈ xs -> P x y -> Q x y) -> Forall2 Q xs ys.
Proof.
  induction 1 as [|x y xs ys Hxy HF IH]; intros HQ; constructor; [apply HQ; [left|done]|].
  apply IH. intros x' y' Hi. apply HQ. by right.
Qed.

(** Position of a key. *)
Fixpoint position (key : cstr) (c : list (cstr * elem)) : option nat :=
  match c with
  | [] => None
  | p :: c' => if bool_decide (fst p = key) then Some O else option_map S (position key c')
  end.
Lemma assign_position key e c :
  assign key e c = match position key c with Some i => <[i := (key, e)]> c | None => c ++ [(key, e)] end.
Proof.
  induction c as [|[k' e'] c IH]; simpl; [done|]. case_bool_decide; simpl; [done|]. rewrite IH.
  by destruct (position key c).
Qed.
Lemma position_lookup key c i : position key c = Some i -> exists e, c !! i = Some (key, e).
Proof.
  revert i. induction c as [|[k' e'] c IH]; intros i; simpl; [done|]. case_bool_decide; simpl in *.
  - intros [= <-]. subst. simpl. eauto.
  - destruct (position key c) eqn:E; simpl; [|done]. intros [= <-]. simpl. eauto.
Qed.
Lemma position_None key c : position key c = None <-> key ∉ map fst c.
Proof.
  induction c as [|[k' e'] c IH]; simpl; [split; [intros _ []%elem_of_nil|done]|].
  rewrite elem_of_cons. case_bool_decide as Hk; simpl in *; [naive_solver|].
  destruct (position key c); simpl; naive_solver.
Qed.

Lemma find_key_loop h key n : forall cs i c, Forall2 (holds_pair h) (take n (drop i cs)) c -> length c = n ->
  map_find_key_loop h cs key i n = Ok (option_map (fun j => (i + j)%nat) (position key c)).
Proof.
  induction n as [|n IH]; intros cs i c HF Hl; destruct c as [|[k e] c]; simpl in Hl; try lia; [done|].
  destruct (drop i cs) as [|x tl] eqn:Hd; [simpl in HF; by inversion HF|].
  simpl in HF. inversion HF as [|? ? ? ? Hx HF']; subst.
  assert (Hci : cs !! i = Some x). { rewrite <- (Nat.add_0_r i), <- lookup_drop, Hd. done. }
  assert (Hd' : drop (S i) cs = tl). { replace (S i) with (i + 1)%nat by lia. rewrite <- drop_drop, Hd. done. }
  cbn [map_find_key_loop]. unfold cell. rewrite Hci. cbn [rbind]. destruct Hx as [(l & Hfx & Hlx) _]. simpl in Hfx, Hlx.
  rewrite Hfx. assert (read_str h (PHeap l) = Ok (Some k)) as ->.
  { unfold read_str. simpl. unfold deref_str. simpl. by rewrite Hlx. }
  cbn [rbind position fst]. rewrite strcmp_eqb.
  case_bool_decide as Hk; [simpl; by rewrite Nat.add_0_r|].
  rewrite (IH cs (S i) c); [|by rewrite Hd'|lia]. destruct (position key c); simpl; [|done]. by rewrite Nat.add_succ_r.
Qed.

Section maps.
Variable D : decl.

Lemma find_key_runs key c fp s : map_at D c fp s ->
  runs (map_find_key key) s (fun r s' => s' = s /\ r = position key c).
Proof.
  intros ((Hc & HC) & Ho & HD). destruct s as [o h lg]. simpl in *. unfold map_find_key. apply runs_bind, runs_get_opt. simpl.
  destruct HC as [(_ & -> & _)|(p & cells & Hv & Hp & Hl & Hcap & Hlen & HF & Hfp & HD')].
  - rewrite Hc. simpl. by apply runs_ret.
  - destruct (Nat.eqb_spec (value_count o) 0) as [Hz|Hz].
    + destruct c; simpl in *; [|lia]. by apply runs_ret.
    + apply runs_bind. rewrite Hv. eapply runs_deref_map; [exact Hp|]. apply runs_bind, runs_get_heap. simpl.
      eapply runs_lift; [apply (find_key_loop _ _ _ _ _ c)|].
      * rewrite drop_0, Hc. done.
      * done.
      * split; [done|]. by destruct (position key c).
Qed.

Lemma map_adjust_goes c fp s : map_at D c fp s ->
  runs adjust_map_size s (fun _ s' => exists fp', map_goes D fp s c fp' [] s' /\
    (value_count (h_opt s') < value_capacity (h_opt s'))%nat /\ exists p, value (h_opt s') = PHeap p).
Proof.
  intros (HC & Ho & HD). destruct s as [o h lg]. simpl in *.
  eapply runs_mono; [apply (adjust_spec BMap own_pair holds_pair holds_pair_ext holds_pair_live _ _ (Indet, Indet)); [done|done|exact HC|done]|].
  intros _ s' (o' & h' & fp' & -> & HC' & M & Ho' & HM & Hroom & Hv). exists fp'. simpl.
  destruct HM as (Hd & Ha & Hs). split; [|done]. split; [|split; [by rewrite app_nil_r|split]].
  - split; [done|]. split; [done|]. simpl. congruence.
  - done.
  - intros l []%elem_of_nil.
Qed.
Lemma map_push_goes k v e c fp s p : map_at D c fp s -> value (h_opt s) = PHeap p ->
  (value_count (h_opt s) < value_capacity (h_opt s))%nat -> holds_pair (h_heap s) (k, v) e ->
  (forall l, l ∈ own_pair (k, v) -> l ∉ fp) -> NoDup (own_pair (k, v)) ->
  runs (push_pair k v) s (fun _ s' => map_goes D (fp ++ own_pair (k, v)) s (c ++ [e]) (fp ++ own_pair (k, v)) [] s').
Proof.
  intros (HC & Ho & HD) Hv Hroom Hx Hdis HN. destruct s as [o h lg]. simpl in *.
  unfold push_pair. apply runs_bind, runs_get_opt. simpl. unfold map_write.
  apply runs_bind, runs_bind. rewrite Hv.
  assert (exists cells, bl h !! p = Some (Some (BMap cells))) as [cells Hp].
  { destruct HC as [_ [(Hv' & _)|(p' & cells & Hv' & Hp & _)]]; [by rewrite Hv' in Hv|]. exists cells. congruence. }
  eapply runs_deref_map; [exact Hp|].
  destruct (coll_push BMap own_pair holds_pair holds_pair_ext holds_pair_live o h c fp p (k, v) e cells) as [[y Hy] (HC' & M & Ho')]; try done.
  { apply map_inj. }
  apply runs_bind. eapply runs_lift; [unfold set_cell; rewrite Hy; reflexivity|].
  eapply runs_store; [exact Hp|]. apply runs_mod. simpl.
  split; [|split; [by rewrite app_nil_r|split]].
  - split; [done|]. split; [simpl; congruence|]. done.
  - done.
  - intros l []%elem_of_nil.
Qed.

(** Replacing the value of entry [i]. *)
Lemma map_replace o h c fp p cells i x k e v' e' h1 :
  map_of o h c fp -> value o = PHeap p -> bl h !! p = Some (Some (BMap cells)) ->
  cells !! i = Some x -> c !! i = Some (k, e) ->
  (forall l, l ∈ fp -> l ∉ own (snd x) -> bl h1 !! l = bl h !! l) ->
  holds h1 v' e' -> (forall l, l ∈ own v' -> l ∉ fp) ->
  exists fp', map_of o (put_block h1 p (Some (BMap (<[i := (fst x, v')]> cells)))) (<[i := (k, e')]> c) fp' /\
    bl h1 !! p = Some (Some (BMap cells)) /\
    forall l, l ∈ fp' <-> (l ∈ fp /\ l ∉ own (snd x)) \/ l ∈ own v'.
Proof.
  intros [Hc HC] Hv Hp Hx Hk Hsame Hv' Hdis.
  destruct HC as [(Hv0 & -> & ->)|(p' & cells' & Hv0 & Hp' & Hl & Hcap & Hlen & HF & Hfp & HN)]; [by rewrite Hv0 in Hv|].
  assert (p' = p) as -> by congruence. assert (cells' = cells) as -> by (apply map_inj; congruence).
  assert (Hi : (i < length c)%nat) by (by eapply lookup_lt_Some).
  assert (Hxt : take (length c) cells !! i = Some x) by (by rewrite lookup_take).
  destruct (elem_of_list_split_length _ _ _ Hxt) as (xs1 & xs2 & Ext & Hl1).
  assert (Hhx : holds_pair h x (k, e)).
  { destruct (Forall2_lookup_l _ _ _ _ _ HF Hxt) as (y & Hy & Hhy). congruence. }
  pose proof HN as HN0. rewrite Hfp in HN. apply NoDup_cons in HN as [Hpn HN].
  assert (Hcat : concat (map own_pair (take (length c) cells)) =
    concat (map own_pair xs1) ++ own (fst x) ++ own (snd x) ++ concat (map own_pair xs2)).
  { rewrite Ext, map_app, concat_app. simpl. unfold own_pair at 2. by rewrite <- app_assoc. }
  assert (Htk : take (length c) (<[i := (fst x, v')]> cells) = xs1 ++ (fst x, v') :: xs2).
  { rewrite take_insert_lt by done. rewrite Ext, Hl1. by rewrite insert_app_r_alt, Nat.sub_diag by lia. }
  assert (Hcat' : concat (map own_pair (take (length c) (<[i := (fst x, v')]> cells))) =
    concat (map own_pair xs1) ++ own (fst x) ++ own v' ++ concat (map own_pair xs2)).
  { rewrite Htk, map_app, concat_app. simpl. unfold own_pair at 2. by rewrite <- app_assoc. }
  rewrite Hcat in HN, Hpn.
  assert (Hin : forall l, l ∈ fp <-> l = p \/ l ∈ concat (map own_pair xs1) \/ l ∈ own (fst x) \/ l ∈ own (snd x) \/ l ∈ concat (map own_pair xs2)).
  { intros l. rewrite Hfp, Hcat, elem_of_cons, !elem_of_app. tauto. }
  apply NoDup_app in HN as (N1 & N12 & HN). apply NoDup_app in HN as (N2 & N23 & HN). apply NoDup_app in HN as (N3 & N34 & N4).
  assert (Hps : p ∉ own (snd x)). { intros Hq. apply Hpn. rewrite !elem_of_app. auto. }
  assert (Hp1 : bl h1 !! p = Some (Some (BMap cells))).
  { rewrite Hsame; [done| |done]. apply Hin. auto. }
  exists (p :: concat (map own_pair (take (length c) (<[i := (fst x, v')]> cells)))).
  split; [|split; [done|]].
  - split; [by rewrite insert_length|]. right. exists p, (<[i := (fst x, v')]> cells).
    split; [done|]. split; [by eapply put_same|]. rewrite !insert_length. do 3 (split; [done|]).
    split; [|split; [done|]].
    + (* contents *)
      assert (HH : forall y z, y ∈ xs1 \/ y ∈ xs2 -> holds_pair h y z ->
        holds_pair (put_block h1 p (Some (BMap (<[i := (fst x, v')]> cells)))) y z).
      { intros y z Hy Hyz. eapply holds_pair_ext; [|exact Hyz]. intros l Hly.
        assert (Hcy : l ∈ concat (map own_pair xs1) \/ l ∈ concat (map own_pair xs2)).
        { destruct Hy as [Hy|Hy]; [left|right]; apply elem_concat_map; eauto. }
        rewrite put_other.
        - apply Hsame; [apply Hin; tauto|]. intros Hls. destruct Hcy as [Hcy|Hcy].
          + apply (N12 l Hcy). rewrite !elem_of_app. auto.
          + by apply (N34 l Hls).
        - intros ->. apply Hpn. rewrite !elem_of_app. tauto. }
      rewrite Htk. rewrite Ext in HF.
      apply Forall2_app_inv_l in HF as (c1 & c2 & HF1 & HF2 & ->).
      inversion HF2 as [|? y2 ? c2' Hy2 HF2']; subst.
      assert (Hl1' : length c1 = length xs1) by (symmetry; by eapply Forall2_length).
      assert (<[length xs1 := (k, e')]> (c1 ++ y2 :: c2') = c1 ++ (k, e') :: c2') as ->.
      { rewrite <- Hl1'. by rewrite insert_app_r_alt, Nat.sub_diag by lia. }
      apply Forall2_app.
      * eapply Forall2_impl_in; [exact HF1|]. intros a b Ha Hb. apply HH; auto.
      * constructor.
        -- rewrite <- Hl1', list_lookup_middle in Hk by done. injection Hk as ->.
           split; cbn [fst snd].
           ++ eapply holds_ext; [|apply Hhx]. intros l Hl2. rewrite put_other.
              ** apply Hsame; [apply Hin; tauto|]. intros Hls. apply (N23 l Hl2). rewrite elem_of_app. auto.
              ** intros ->. apply Hpn. rewrite !elem_of_app. tauto.
           ++ eapply holds_ext; [|exact Hv']. intros l Hl2. apply put_other. intros Hpl. apply (Hdis l Hl2). apply Hin. by left.
        -- eapply Forall2_impl_in; [exact HF2'|]. intros a b Ha Hb. apply HH; auto.
    + rewrite Hcat'. apply NoDup_cons.
      assert (Hd' : forall l, l ∈ own v' -> l ∉ concat (map own_pair xs1) /\ l ∉ own (fst x) /\ l ∉ concat (map own_pair xs2) /\ l <> p).
      { intros l Hl2. pose proof (Hdis l Hl2) as Hn. rewrite Hin in Hn. tauto. }
      split.
      * rewrite !elem_of_app in *. intros Hq. destruct Hq as [Hq|[Hq|[Hq|Hq]]]; [tauto|tauto| |tauto].
        by destruct (Hd' _ Hq) as (_ & _ & _ & ?).
      * apply NoDup_app. split; [done|]. split.
        { intros l Hl2 Hq. rewrite !elem_of_app in Hq. destruct Hq as [Hq|[Hq|Hq]].
          - apply (N12 l Hl2). rewrite !elem_of_app. auto.
          - by destruct (Hd' _ Hq).
          - apply (N12 l Hl2). rewrite !elem_of_app. auto. }
        apply NoDup_app. split; [done|]. split.
        { intros l Hl2 Hq. rewrite !elem_of_app in Hq. destruct Hq as [Hq|Hq].
          - by destruct (Hd' _ Hq) as (_ & ? & _).
          - apply (N23 l Hl2). rewrite !elem_of_app. auto. }
        apply NoDup_app. split; [destruct v'; simpl; try constructor; [set_solver|constructor]|]. split; [|done].
        intros l Hl2 Hq. by destruct (Hd' _ Hl2) as (_ & _ & ? & _).
  - intros l. rewrite elem_of_cons, Hcat', !elem_of_app, Hin. clear Hin Hsame Hdis.
    split.
    + intros [->|[Hq|[Hq|[Hq|Hq]]]]; [left; tauto| | |tauto|].
      * left. split; [tauto|]. intros Hls. apply (N12 l Hq). rewrite !elem_of_app. auto.
      * left. split; [tauto|]. intros Hls. apply (N23 l Hq). rewrite !elem_of_app. auto.
      * left. split; [tauto|]. intros Hls. by apply (N34 l Hls).
    + tauto.
Qed.
End maps.
