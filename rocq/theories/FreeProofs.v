(** * Releasing the value of an option *)
From Coq Require Import Lia.
From stdpp Require Import sets.
From Verif Require Import Api LibProofs FrameProofs SpecGrammar SpecAfter SpecMemory SpecContents SpecSafe HeapProofs ListProofs ArrayProofs
  FlagProofs ArrayHandlers MapProofs MapHandlers MapFlags MapWhole.

Section free.

(** What releasing does to the state: the blocks [fp] are gone. *)
Definition frees (fp : list nat) (s s' : hst) : Prop :=
  moves fp (h_heap s) [] (h_heap s') /\ oom (h_heap s') = oom (h_heap s) /\ h_opt s' = h_opt s /\ h_log s' = h_log s.

Lemma frees_refl s : frees [] s s.
Proof. split_and!; try done. apply moves_refl. Qed.
Lemma frees_app fp1 fp2 s s1 s2 : (forall l, l ∈ fp2 -> l ∉ fp1 /\ (l < length (bl (h_heap s)))%nat) -> frees fp1 s s1 -> frees fp2 s1 s2 -> frees (fp1 ++ fp2) s s2.
Proof.
  intros HD (M1 & O1 & P1 & L1) (M2 & O2 & P2 & L2). split_and!; try congruence.
  eapply moves_trans with (fp2 := fp2) (h2 := h_heap s1); [|exact M2].
  apply (moves_in fp2 fp1 (h_heap s) [] (h_heap s1)); [done|clear; set_solver|clear; set_solver|done].
Qed.

Lemma free_block l b o h lg (Q : unit -> hst -> Prop) : bl h !! l = Some (Some b) ->
  (frees [l] (Hst o h lg) (Hst o (put_block h l None) lg) -> Q tt (Hst o (put_block h l None) lg)) ->
  runs (hfree (PHeap l)) (Hst o h lg) Q.
Proof.
  intros Hl HQ. eapply runs_free; [done|]. apply HQ. split_and!; try done. by eapply moves_free.
Qed.

Lemma free_cells_runs p cells n : forall i es o h lg, bl h !! p = Some (Some (BArr cells)) -> (i + n <= length cells)%nat ->
  Forall2 (holds h) (take n (drop i cells)) es -> Forall (of_kind EText) es ->
  NoDup (p :: concat (map own (take n (drop i cells)))) ->
  runs (free_cells (PHeap p) i n) (Hst o h lg) (fun _ s' => frees (concat (map own (take n (drop i cells)))) (Hst o h lg) s').
Proof.
  induction n as [|n IH]; intros i es o h lg Hp Hlen HF HK HD; cbn [free_cells].
  { rewrite take_0. apply runs_ret, frees_refl. }
  destruct (lookup_lt_is_Some_2 cells i) as [x Hx]; [lia|].
  rewrite (drop_S _ _ _ Hx) in *. cbn [take] in *. inversion HF as [|? e ? es' He HF']; subst.
  apply Forall_cons in HK as [Ke HK]. destruct e as [t|]; [|done]. destruct He as (l & -> & Hl). cbn [map own concat app] in *.
  assert (Hpl : p <> l) by (apply NoDup_cons in HD as [HD _]; clear -HD; set_solver).
  assert (Hln : l ∉ concat (map own (take n (drop (S i) cells)))).
  { apply NoDup_cons in HD as [_ HD]. by apply NoDup_cons in HD as [HD _]. }
  apply runs_bind. unfold arr_read. apply runs_bind. eapply runs_deref_arr; [done|].
  eapply runs_lift; [unfold cell; by rewrite Hx|].
  apply runs_bind. eapply free_block; [done|]. intros F1.
  assert (HF2 : Forall2 (holds (put_block h l None)) (take n (drop (S i) cells)) es').
  { eapply (all_ext BArr own holds holds_ext holds_live); [|exact HF']. intros l' Hl'. apply put_other. intros <-. done. }
  eapply runs_mono; [apply (IH (S i) es')|].
  - by rewrite put_other.
  - lia.
  - done.
  - done.
  - apply NoDup_cons in HD as [HD1 HD]. apply NoDup_cons in HD as [_ HD]. apply NoDup_cons. split; [clear -HD1; set_solver|done].
  - intros ? s' F2. eapply (frees_app [l]); [|exact F1|exact F2]. intros l' Hl'. split; [clear -Hl' Hln; set_solver|].
    destruct (all_live own holds holds_live _ _ _ _ HF' Hl') as [? Hv]. eapply live_lt. exact Hv.
Qed.

Lemma free_pairs_runs tv k p cells n : (tv = true <-> k = EText) -> forall i ps o h lg, bl h !! p = Some (Some (BMap cells)) -> (i + n <= length cells)%nat ->
  Forall2 (holds_pair h) (take n (drop i cells)) ps -> Forall (fun q => of_kind k (snd q)) ps ->
  NoDup (p :: concat (map own_pair (take n (drop i cells)))) ->
  runs (free_pairs tv (PHeap p) i n) (Hst o h lg) (fun _ s' => frees (concat (map own_pair (take n (drop i cells)))) (Hst o h lg) s').
Proof.
  intros Htv. induction n as [|n IH]; intros i es o h lg Hp Hlen HF HK HD; cbn [free_pairs].
  { rewrite take_0. apply runs_ret, frees_refl. }
  destruct (lookup_lt_is_Some_2 cells i) as [x Hx]; [lia|].
  rewrite (drop_S _ _ _ Hx) in *. cbn [take] in *. inversion HF as [|? q ? es' He HF']; subst.
  apply Forall_cons in HK as [Ke HK]. destruct He as [(lk & Ek & Hlk) Hv].
  destruct x as [xk xv]. cbn [fst snd] in *. subst xk.
  assert (Hrest : forall h' o' lg', bl h' !! p = Some (Some (BMap cells)) ->
    (forall l, l ∈ concat (map own_pair (take n (drop (S i) cells))) -> bl h' !! l = bl h !! l) ->
    runs (free_pairs tv (PHeap p) (S i) n) (Hst o' h' lg') (fun _ s' => frees (concat (map own_pair (take n (drop (S i) cells)))) (Hst o' h' lg') s')).
  { intros h' o' lg' Hp' Hsame. apply (IH (S i) es'); [done|lia| |done|].
    - eapply (all_ext BMap own_pair holds_pair holds_pair_ext holds_pair_live); [|exact HF']. done.
    - cbn [map concat] in HD. unfold own_pair at 1 in HD. cbn [fst snd own] in HD.
      apply NoDup_cons in HD as [HD1 HD]. apply NoDup_app in HD as (_ & _ & HD). apply NoDup_cons. split; [|done].
      intros Hi. apply HD1. apply elem_of_app. by right. }
  assert (Hlive : forall l, l ∈ concat (map own_pair (take n (drop (S i) cells))) -> (l < length (bl h))%nat).
  { intros l Hl. destruct (all_live own_pair holds_pair holds_pair_live _ _ _ _ HF' Hl) as [? Hl']. by eapply live_lt. }
  cbn [map concat] in HD |- *. unfold own_pair at 1 in HD. unfold own_pair at 1. cbn [fst snd own] in HD |- *.
  apply runs_bind. eapply runs_deref_map; [done|]. apply runs_bind. eapply runs_lift; [unfold cell; by rewrite Hx|]. cbn [fst snd].
  apply runs_bind. eapply free_block; [done|]. intros F1.
  destruct (snd q) as [t|w z].
  - destruct Hv as (lv & -> & Hlv). assert (k = EText) as -> by (by destruct k). assert (tv = true) as -> by (by apply Htv). cbn [own app] in *.
    apply NoDup_cons in HD as [HD1 HD]. apply NoDup_cons in HD as [HD2 HD]. apply NoDup_cons in HD as [HD3 HD].
    assert (lk <> lv) by (intros ->; apply HD2; left). assert (p <> lk) by (intros ->; apply HD1; left).
    assert (p <> lv) by (intros ->; apply HD1; right; left).
    apply runs_bind. eapply free_block; [by rewrite put_other|]. intros F2.
    eapply runs_mono; [apply Hrest|].
    + by rewrite !put_other.
    + intros l Hl. rewrite !put_other; [done| |]; intros <-; [apply HD2; by right|done].
    + intros ? s' F3. eapply (frees_app [lk]); [|exact F1|].
      { intros l Hl. split; [|].
        - intros ->%elem_of_list_singleton. done.
        - apply elem_of_cons in Hl as [->|Hl]; [by eapply live_lt|by apply Hlive]. }
      eapply (frees_app [lv]); [|exact F2|exact F3].
      intros l Hl. split; [by intros ->%elem_of_list_singleton|]. cbn [h_heap]. rewrite put_len. by apply Hlive.
  - simpl in Hv. subst xv. assert (tv = false) as -> by (destruct tv; [|done]; by rewrite (proj1 Htv eq_refl) in Ke). cbn [own app] in *.
    apply NoDup_cons in HD as [HD1 HD]. apply NoDup_cons in HD as [HD2 HD].
    assert (p <> lk) by (intros ->; apply HD1; left).
    apply runs_bind, runs_ret. eapply runs_mono; [apply Hrest|].
    + by rewrite put_other.
    + intros l Hl. rewrite put_other; [done|]. by intros <-.
    + intros ? s' F3. eapply (frees_app [lk]); [|exact F1|exact F3].
      intros l Hl. split; [by intros ->%elem_of_list_singleton|by apply Hlive].
Qed.

Lemma num_own k h xs c : k <> EText -> Forall (of_kind k) c -> Forall2 (holds h) xs c -> concat (map own xs) = [].
Proof.
  intros Hk HK HF. induction HF as [|x e xs c He HF IH]; [done|]. apply Forall_cons in HK as [Ke HK]. cbn [map concat]. rewrite (IH HK), app_nil_r.
  destruct e as [s|w z]; [by destruct k|]. simpl in He. by subst x.
Qed.

(** The option after its value has been released. *)
Definition emptied (o : opt) : opt := with_value (with_allocated o false) VNull.

Lemma free_array_runs k c fp o h lg : fits (decl_of o) -> shape_of (decl_of o) = Listed k -> is_allocated o = true ->
  array_of o h c fp -> Forall (of_kind k) c -> c <> [] ->
  runs free_option_value (Hst o h lg) (fun _ s' => moves fp h [] (h_heap s') /\ oom (h_heap s') = oom h /\ h_opt s' = emptied o).
Proof.
  intros [Hf _ _] Hs Ha [Hc HC] HK Hne. rewrite Hs in Hf. destruct Hf as (_ & _ & Hf).
  destruct HC as [(_ & -> & _)|(p & cells & Hv & Hp & Hcap & _ & Hlen & HF & -> & HD)]; [done|].
  unfold free_option_value. apply runs_bind, runs_get_opt. cbn [h_opt]. rewrite Ha.
  assert (Hdef : k <> EText -> runs (hfree (value o);;; mod_opt (fun o0 => with_value (with_allocated o0 false) VNull)) (Hst o h lg)
    (fun _ s' => moves (p :: concat (map own (take (length c) cells))) h [] (h_heap s') /\ oom (h_heap s') = oom h /\ h_opt s' = emptied o)).
  { intros Hk. rewrite Hv. apply runs_bind. eapply free_block; [done|]. intros (M & O & _). apply runs_mod. cbn [h_heap h_opt]. split; [|done].
    by rewrite (num_own k h _ c). }
  assert (k = EText \/ k <> EText) as [->|Hk] by (destruct k; auto).
  - assert (runs (free_cells (value o) 0 (value_count o);;; hfree (value o)) (Hst o h lg)
      (fun _ s' => frees (concat (map own (take (length c) cells)) ++ [p]) (Hst o h lg) s')) as HR.
    { rewrite Hv, Hc. apply runs_bind.
      eapply runs_mono; [apply (free_cells_runs p cells (length c) 0 c); rewrite ?drop_0; try done|].
      intros ? [o1 h1 lg1] F1. rewrite drop_0 in F1. pose proof F1 as (M1 & O1 & E1 & L1). cbn [h_opt h_heap h_log] in *. subst o1 lg1.
      apply NoDup_cons in HD as [HD1 HD2].
      eapply free_block; [eapply (moves_other _ _ _ _ _ _ M1); [exact HD1|exact Hp]|].
      intros F2. eapply frees_app; [|exact F1|exact F2].
      intros l ->%elem_of_list_singleton. split; [done|]. by eapply live_lt. }
    destruct Hf as [-> | ->]; cbn [run_free]; (apply runs_bind; apply runs_bind, runs_get_opt; eapply runs_mono; [exact HR|]);
      intros ? s' (M & O & E & _); apply runs_mod; cbn [h_heap h_opt] in *; rewrite E;
      (split; [|done]; eapply moves_equiv; [| |exact M]; [clear; set_solver|clear; set_solver]).
  - assert (d_free (decl_of o) = Some FDefault \/ d_free (decl_of o) = None) as [-> | ->] by (by destruct k).
    + cbn [run_free]. specialize (Hdef Hk). destruct Hdef as (u & s' & E & Q). exists u, s'. split; [|exact Q].
      rewrite <- E. done.
    + by apply Hdef.
Qed.

Lemma free_map_runs k c fp o h lg : fits (decl_of o) -> shape_of (decl_of o) = Mapped k -> is_allocated o = true ->
  map_of o h c fp -> pairs_of k c -> c <> [] ->
  runs free_option_value (Hst o h lg) (fun _ s' => moves fp h [] (h_heap s') /\ oom (h_heap s') = oom h /\ h_opt s' = emptied o).
Proof.
  intros [Hf _ _] Hs Ha [Hc HC] HK Hne. rewrite Hs in Hf. destruct Hf as (_ & _ & Hf).
  destruct HC as [(_ & -> & _)|(p & cells & Hv & Hp & Hcap & _ & Hlen & HF & -> & HD)]; [done|].
  unfold free_option_value. apply runs_bind, runs_get_opt. cbn [h_opt]. rewrite Ha.
  assert (forall tv, (tv = true <-> k = EText) -> runs (free_map tv) (Hst o h lg)
      (fun _ s' => frees (concat (map own_pair (take (length c) cells)) ++ [p]) (Hst o h lg) s')) as HR.
  { intros tv Htv. unfold free_map. apply runs_bind, runs_get_opt. cbn [h_opt]. rewrite Hv, Hc. apply runs_bind. eapply runs_lift; [done|]. cbv iota. apply runs_bind.
    eapply runs_mono; [apply (free_pairs_runs tv k p cells (length c) Htv 0 c); rewrite ?drop_0; try done|].
    intros ? [o1 h1 lg1] F1. rewrite drop_0 in F1. pose proof F1 as (M1 & O1 & E1 & L1). cbn [h_opt h_heap h_log] in *. subst o1 lg1.
    apply NoDup_cons in HD as [HD1 HD2].
    eapply free_block; [eapply (moves_other _ _ _ _ _ _ M1); [exact HD1|exact Hp]|].
    intros F2. eapply frees_app; [|exact F1|exact F2].
    intros l ->%elem_of_list_singleton. split; [done|]. by eapply live_lt. }
  assert (exists f tv, d_free (decl_of o) = Some f /\ (tv = true <-> k = EText) /\
     forall s, run_free f s = free_map tv s) as (f & tv & -> & Htv & Ef).
  { destruct k; [exists FMapString, true; by rewrite Hf|..];
      (destruct Hf as [-> | [-> | ->]]; eexists _, false; split_and!; done). }
  apply runs_bind. destruct (HR tv Htv) as (u & s' & E & (M & O & E' & _)). exists u, s'. split; [by rewrite Ef|].
  apply runs_mod. cbn [h_heap h_opt] in *. rewrite E'.
  split; [|done]; eapply moves_equiv; [| |exact M]; clear; set_solver.
Qed.
End free.
