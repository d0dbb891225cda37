(** * Handling one text keeps the context well formed *)
From Coq Require Import Lia.
From stdpp Require Import sets.
From Verif Require Import Api LibProofs FrameProofs SpecGrammar SpecAfter SpecMemory SpecContents SpecSafe HeapProofs ListProofs ArrayProofs
  FlagProofs ArrayHandlers MapProofs MapHandlers MapFlags MapWhole FreeProofs.

Section safe.
Context `{Libc}.

(** ** One option *)

(** [entry_inv clean h o vs fp lk]: the option [o] is well formed and owns the blocks [fp]; when
    [clean], no text was refused, it holds what the texts [vs] make of it, and lost the blocks [lk]. *)
Definition entry_inv (clean : bool) (h : heap) (o : opt) (vs : list cstr) (fp lk : list nat) : Prop :=
  match shape_of (decl_of o) with
  | Plain => is_allocated o = false /\ typed o /\ fp = [] /\ lk = []
  | Listed k => exists c, array_of o h c fp /\ good (decl_of o) k c /\ (is_allocated o = true -> c <> []) /\ lk = [] /\
      (clean = true -> array_filled (decl_of o) vs c /\ (is_allocated o = false -> fp = []))
  | Mapped k => exists c, map_of o h c fp /\ mgood (decl_of o) k c /\ (is_allocated o = true -> c <> []) /\
      (clean = true -> map_filled (decl_of o) vs c (length lk) /\ (is_allocated o = false -> fp = []))
  end.

Lemma shape_listed d k : shape_of d = Listed k <-> exists f b, d_handler d = Some f /\ array_handler f = Some (b, k).
Proof.
  unfold shape_of. destruct (d_handler d) as [f|]; [|split; [done|by intros (? & ? & ? & _)]]. split.
  - destruct (array_handler f) as [[b k']|] eqn:E; [intros [= ->]; eauto|]. by destruct (map_handler f).
  - intros (f' & b & [= <-] & ->). done.
Qed.
Lemma shape_mapped d k : shape_of d = Mapped k <-> exists f, d_handler d = Some f /\ map_handler f = Some k.
Proof.
  unfold shape_of. destruct (d_handler d) as [f|]; [|split; [done|by intros (? & ? & _)]]. split.
  - destruct (array_handler f) as [[b k']|] eqn:E; [done|]. destruct (map_handler f) eqn:E'; [intros [= ->]; eauto|done].
  - intros (f' & [= <-] & Hf). destruct f; simpl in *; congruence.
Qed.
Lemma shape_plain d : shape_of d = Plain <-> forall f, d_handler d = Some f -> array_handler f = None /\ map_handler f = None.
Proof.
  unfold shape_of. destruct (d_handler d) as [f|]; [|by split]. split.
  - destruct (array_handler f) as [[b k']|] eqn:E; [done|]. destruct (map_handler f) eqn:E'; [done|]. intros _ f' [= <-]. done.
  - intros Hf. destruct (Hf f eq_refl) as [-> ->]. done.
Qed.

Lemma entry_weaken clean h o vs vs' fp lk : entry_inv clean h o vs fp lk -> entry_inv false h o vs' fp lk.
Proof.
  unfold entry_inv. destruct (shape_of (decl_of o)); [done|..].
  - intros (c & ? & ? & ? & ? & _). exists c. by split_and!.
  - intros (c & ? & ? & ? & _). exists c. by split_and!.
Qed.
Lemma entry_live clean h o vs fp lk l : entry_inv clean h o vs fp lk -> l ∈ fp -> (l < length (bl h))%nat.
Proof.
  unfold entry_inv. destruct (shape_of (decl_of o)).
  - intros (_ & _ & -> & _) []%elem_of_nil.
  - intros (c & HC & _). by apply (coll_lt BArr own holds holds_live _ _ _ _ _ HC).
  - intros (c & HC & _). by apply (coll_lt BMap own_pair holds_pair holds_pair_live _ _ _ _ _ HC).
Qed.
Lemma entry_moves clean h h' o vs fp lk fp1 fp2 : moves fp1 h fp2 h' -> (forall l, l ∈ fp -> l ∉ fp1) ->
  entry_inv clean h o vs fp lk -> entry_inv clean h' o vs fp lk.
Proof.
  intros M HD. unfold entry_inv. destruct (shape_of (decl_of o)); [done|..].
  - intros (c & HC & R). exists c. split; [|done]. eapply (coll_moves BArr own holds holds_ext holds_live); eassumption.
  - intros (c & HC & R). exists c. split; [|done]. eapply (coll_moves BMap own_pair holds_pair holds_pair_ext holds_pair_live); eassumption.
Qed.
Lemma entry_pristine h o : pristine o -> entry_inv true h o [] [] [].
Proof.
  intros [Ha Hp]. unfold entry_inv. destruct (shape_of (decl_of o)) eqn:Es; [done|..]; destruct Hp as [Hv Hc]; exists [].
  - split; [split; [done|by left]|]. split; [split; [constructor|intros; constructor]|]. split; [congruence|]. split; [done|].
    intros _. split; [constructor|done].
  - split; [split; [done|by left]|]. split; [split; [constructor|intros; constructor]|]. split; [congruence|].
    intros _. split; [constructor|done].
Qed.

(** What execute_callbacks does to an option whose handler succeeded. *)
Definition finished (o : opt) : opt :=
  let o3 := with_set o true in if (value_count o3 =? 0)%nat then with_count o3 1 else o3.

Definition vlist (v : option cstr) : list cstr := match v with Some s => [s] | None => [] end.

Lemma handler_inv act f v clean h o vs fp lk : qsort_sorts -> fits (decl_of o) -> d_handler (decl_of o) = Some f ->
  entry_inv clean h o vs fp lk -> oom h = [] -> (v = None -> d_vtype (decl_of o) = VT_FLAG) ->
  (forall s, v = Some s -> harmless_text (decl_of o) s) ->
  runs (run_handler act f v) (Hst o h []) (fun st s' => decl_of (h_opt s') = decl_of o /\ oom (h_heap s') = [] /\
    exists fp' lk', moves fp h (fp' ++ lk') (h_heap s') /\
      (forall l, l ∈ lk' -> l ∉ fp' /\ (l < length (bl (h_heap s')))%nat) /\
      entry_inv (clean && (st =? 0)) (h_heap s') (if st =? 0 then finished (h_opt s') else h_opt s') (vs ++ vlist v) fp' (lk ++ lk')).
Proof.
  intros HQ HFit Hf HI Ho Hnone Hharm.
  destruct (shape_of (decl_of o)) as [|k|k] eqn:Es.
  - (* plain *)
    unfold entry_inv in HI. rewrite Es in HI. destruct HI as (Ha & Ht & -> & ->).
    assert (Hnl := proj1 (shape_plain _) Es f Hf).
    assert (Hend : forall st o', decl_of o' = decl_of o -> is_allocated o' = false -> typed (if st =? 0 then finished o' else o') ->
      runs (hret st) (Hst o' h []) (fun st s' => decl_of (h_opt s') = decl_of o /\ oom (h_heap s') = [] /\
      exists fp' lk', moves [] h (fp' ++ lk') (h_heap s') /\
        (forall l, l ∈ lk' -> l ∉ fp' /\ (l < length (bl (h_heap s')))%nat) /\
        entry_inv (clean && (st =? 0)) (h_heap s') (if st =? 0 then finished (h_opt s') else h_opt s') (vs ++ vlist v) fp' ([] ++ lk'))).
    { intros st o' Hd Ha' Ht'. apply runs_ret. cbn [h_opt h_heap]. split; [done|]. split; [done|]. exists [], [].
      split; [apply moves_refl|]. split; [intros l []%elem_of_nil|].
      assert (Hd' : decl_of (if st =? 0 then finished o' else o') = decl_of o).
      { destruct (st =? 0); [|done]. rewrite <- Hd. unfold finished. by destruct (value_count _ =? 0)%nat. }
      assert (Ha'' : is_allocated (if st =? 0 then finished o' else o') = false).
      { destruct (st =? 0); [|done]. rewrite <- Ha'. unfold finished. by destruct (value_count _ =? 0)%nat. }
      unfold entry_inv. by rewrite Hd', Es. }
    assert (Hfin : forall o', decl_of (finished o') = decl_of o' /\ value (finished o') = value o' /\ is_set (finished o') = true).
    { intros o'. unfold finished. by destruct (value_count _ =? 0)%nat. }
    assert (Htv : forall o' x, decl_of o' = decl_of o -> value o' = x ->
       match f with HInt => exists z, as_int x = Ok z | HFloat => exists z, as_float x = Ok z
         | HString => exists s, x = PLit s | _ => True end -> typed (finished o')).
    { intros o' x Hd Hv Hx. destruct (Hfin o') as (E1 & E2 & E3). unfold typed. rewrite E1, Hd, Hf, E2, Hv, E3.
      by destruct f. }
    destruct f; cbn [run_handler]; try (by destruct Hnl).
    + apply runs_bind, runs_mod. apply Hend; [done|done|]. by eapply Htv.
    + unfold bool_handler. destruct v as [s|].
      * destruct (string_to_bool s) as [b|].
        -- apply runs_bind, runs_mod. apply Hend; [done|done|]. by eapply Htv.
        -- apply runs_bind. eapply runs_emit. apply runs_ret. cbn [h_opt h_heap]. split; [done|]. split; [done|].
           exists [], []. split; [apply moves_refl|]. split; [intros l []%elem_of_nil|].
           unfold entry_inv. cbn. rewrite Es. done.
      * apply runs_bind, runs_get_opt, runs_bind. eapply runs_emit. apply runs_ret. cbn [h_opt h_heap]. split; [done|]. split; [done|].
        exists [], []. split; [apply moves_refl|]. split; [intros l []%elem_of_nil|].
        unfold entry_inv. cbn. rewrite Es. done.
    + apply runs_bind, runs_mod. apply Hend; [done|done|]. eapply Htv; [done|done|]. destruct v as [s|]; [by eexists|].
      destruct (ft_flag _ HFit) as (_ & _ & Hn); [auto|done].
    + destruct v as [s|]; [|destruct (ft_flag _ HFit) as (Hn & _); [auto|done]].
      apply runs_bind, runs_mod. apply Hend; [done|done|]. eapply Htv; [done|done|]. by eexists.
    + destruct v as [s|]; [|destruct (ft_flag _ HFit) as (_ & Hn & _); [auto|done]].
      apply runs_bind, runs_mod. apply Hend; [done|done|]. eapply Htv; [done|done|]. by eexists.
    + apply runs_bind, runs_emit. apply runs_ret. cbn [h_opt h_heap]. split; [done|]. split; [done|]. exists [], [].
      split; [apply moves_refl|]. split; [intros l []%elem_of_nil|]. change (SUCCESS =? 0) with true. cbv iota.
      destruct (Hfin o) as (E1 & E2 & E3). unfold entry_inv. rewrite E1, Es. split_and!; try done; [|by eapply Htv].
      unfold finished. by destruct (value_count _ =? 0)%nat.
    + apply runs_bind, runs_emit. apply runs_ret. cbn [h_opt h_heap]. split; [done|]. split; [done|]. exists [], [].
      split; [apply moves_refl|]. split; [intros l []%elem_of_nil|]. change (SUCCESS =? 0) with true. cbv iota.
      destruct (Hfin o) as (E1 & E2 & E3). unfold entry_inv. rewrite E1, Es. split_and!; try done; [|by eapply Htv].
      unfold finished. by destruct (value_count _ =? 0)%nat.
    + apply runs_bind, runs_get_opt. cbn [h_opt]. destruct (f v (value o)) as [st x]. apply runs_bind, runs_mod. cbn [h_opt h_heap h_log].
      apply Hend; [done|done|]. unfold typed. destruct (st =? 0).
      * destruct (Hfin (with_value o x)) as (-> & _ & _). cbn. by rewrite Hf.
      * cbn. by rewrite Hf.
  - (* arrays *)
    pose proof Es as Es'. apply shape_listed in Es as (f' & b & Hf' & Hk). assert (f' = f) as -> by congruence.
    pose proof (ft_shape _ HFit) as FS. rewrite Es' in FS. destruct FS as (Hkind & _ & _).
    unfold entry_inv in HI. rewrite Es' in HI. destruct HI as (c & HC & HG & Hal & -> & Hcl).
    destruct v as [s|]; [|rewrite (Hnone eq_refl) in Hkind; done].
    destruct (Hharm s eq_refl f Hf) as [Hh _]. rewrite Hk in Hh. specialize (Hh ltac:(done)).
    eapply runs_mono; [apply (array_handler_spec (decl_of o) act f b k s c fp (Hst o h [])); [done|done|done|by split_and!|done|done]|].
    intros st s' (c' & fp' & (HC' & Ho' & Hd') & M & Hset & HG' & HR). cbn [h_heap h_opt] in *.
    split; [done|]. split; [done|]. exists fp', []. rewrite app_nil_r. split; [done|]. split; [intros l []%elem_of_nil|].
    destruct HR as [(-> & Hal' & Hne & es & Hy & HFl)|(Hst & Hal' & Hkeep & Hno)].
    + change (0 =? 0) with true. cbv iota. rewrite andb_true_r.
      assert (Hcnt : finished (h_opt s') = with_set (h_opt s') true).
      { unfold finished. cbn. destruct HC' as [Hc' _]. rewrite Hc'. destruct c'; [done|]. done. }
      rewrite Hcnt. unfold entry_inv. cbn [with_set decl_of]. rewrite Hd', Es'. exists c'. split_and!; try done.
      intros Hc. split; [|cbn; congruence].
      destruct (Hcl Hc) as [HA _]. cbn [vlist]. eapply af_text; eassumption.
    + destruct (Z.eqb_spec st 0) as [|_]; [done|]. rewrite andb_false_r. unfold entry_inv. rewrite Hd', Es'. exists c'.
      split_and!; try done. intros Ha. apply Hkeep; [congruence|]. apply Hal. congruence.
  - (* maps *)
    pose proof Es as Es'. apply shape_mapped in Es as (f' & Hf' & Hk). assert (f' = f) as -> by congruence.
    pose proof (ft_shape _ HFit) as FS. rewrite Es' in FS. destruct FS as (Hkind & _ & _).
    unfold entry_inv in HI. rewrite Es' in HI. destruct HI as (c & HC & HG & Hal & Hcl).
    destruct v as [s|]; [|rewrite (Hnone eq_refl) in Hkind; done].
    destruct (Hharm s eq_refl f Hf) as [_ Hh]. rewrite Hk in Hh. specialize (Hh ltac:(done)).
    eapply runs_mono; [apply (map_handler_spec (decl_of o) act f k s c fp (Hst o h [])); [done|done|done|by split_and!|done|done]|].
    intros st s' (c' & fp' & lk' & (HC' & Ho' & Hd') & M & Hlk & Hset & HG' & HR). cbn [h_heap h_opt] in *.
    split; [done|]. split; [done|]. exists fp', lk'. split; [done|]. split; [done|].
    destruct HR as [(-> & Hal' & Hne & c1 & Hy & HFl)|(Hst & Hal' & Hkeep & Hno)].
    + change (0 =? 0) with true. cbv iota. rewrite andb_true_r.
      assert (Hcnt : finished (h_opt s') = with_set (h_opt s') true).
      { unfold finished. cbn. destruct HC' as [Hc' _]. rewrite Hc'. destruct c'; [done|]. done. }
      rewrite Hcnt. unfold entry_inv. cbn [with_set decl_of]. rewrite Hd', Es'. exists c'. split_and!; try done.
      intros Hc. split; [|cbn; congruence].
      destruct (Hcl Hc) as [HA _]. cbn [vlist]. rewrite app_length. eapply mf_text; eassumption.
    + destruct (Z.eqb_spec st 0) as [|_]; [done|]. rewrite andb_false_r. unfold entry_inv. rewrite Hd', Es'. exists c'.
      split_and!; try done. intros Ha. apply Hkeep; [congruence|]. apply Hal. congruence.
Qed.
End safe.
