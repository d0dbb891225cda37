(** * Ranges that reach the greatest int: proofs *)
From Coq Require Import Lia.
From stdpp Require Import sets.
From Verif Require Import Api LibProofs FrameProofs SpecGrammar GrammarProofs GrammarLemmas ActiveProofs SpecAfter EnvProofs AfterFacts
  AfterProofs CallProofs WholeProofs MoreFacts SpecStructure StructProofs LookupProofs IsolationProofs SpecMemory SpecContents SpecSafe SpecCollections HeapProofs SplitProofs ListProofs OrderProofs ArrayProofs
  FlagProofs ArrayHandlers MapProofs MapHandlers MapFlags MapWhole FreeProofs SafeProofs SafeContext SafePerform CollProofs CollMaps SafeFacts RangeProofs
  SpecTold SpecMessages SpecRefused RefusedProofs SpecLeak LeakProofs.

From Verif Require Import SpecMemory.

(** The statement ends in a signed overflow. *)
Definition overflows {A} (m : HM A) (s : hst) : Prop := m s = UB SignedOverflow.
Lemma overflows_bind {A B} (m : HM A) (k : A -> HM B) s : overflows m s -> overflows (hbind m k) s.
Proof. unfold overflows, hbind. by intros ->. Qed.
Lemma runs_overflows {A B} (m : HM A) (k : A -> HM B) s (Q : A -> hst -> Prop) : runs m s Q -> (forall x s', Q x s' -> overflows (k x) s') ->
  overflows (hbind m k) s.
Proof. intros (x & s' & E & HQ) Hk. unfold overflows, hbind. rewrite E. by apply Hk. Qed.

Lemma strchr_none s ch : strchr s ch = None <-> ch ∉ s.
Proof.
  induction s as [|x s IH]; simpl.
  - split; [intros _ []%elem_of_nil|done].
  - destruct (Ascii.eqb_spec x ch) as [->|Hne]; [set_solver|]. rewrite elem_of_cons.
    destruct (strchr s ch); naive_solver.
Qed.

Section greatest.
Context `{Libc}.
Variable D : decl.
Lemma range_overflows n : forall a c fp s, arr_at D c fp s -> a <= INT_MAX <= a + Z.of_nat n - 1 -> overflows (add_range_values a n) s.
Proof.
  induction n as [|n IH]; intros a c fp s HA Hn; [lia|]. cbn [add_range_values].
  assert (HH : overflows ((adjust_array_size ;;; push_value (of_int a)) ;;; (if a =? INT_MAX then hub SignedOverflow else add_range_values (a + 1) n)) s).
  { eapply runs_overflows; [apply (append_goes D _ (Num W4 (a mod two32)) c fp); [done|done|]|].
    - intros h. simpl. reflexivity.
    - intros _ s1 (fp1 & G1). destruct (Z.eqb_spec a INT_MAX); [done|]. eapply IH; [by destruct G1|lia]. }
  unfold overflows, hbind in *. destruct (adjust_array_size s) as [[? ?]|]; done.
Qed.
Lemma word_overflows a b c fp w s : arr_at D c fp s -> parse_int_range w = Some (a, b) -> b = INT_MAX -> overflows (set_value_int w) s.
Proof.
  intros HA E ->. pose proof (parse_int_range_le _ _ _ E). unfold set_value_int. rewrite E. apply overflows_bind.
  eapply range_overflows; [exact HA|]. lia.
Qed.
Lemma words_overflow rest ws1 w ws2 a : forall ls c fp s, arr_at D c fp s -> Forall (fun w => int_ok w /\ int_piece w <> None) ws1 ->
  parse_int_range w = Some (a, INT_MAX) ->
  texts_at (h_heap s) ls (ws1 ++ w :: ws2) -> (forall l, l ∈ ls -> l ∉ fp) ->
  overflows (for_words (map PHeap ls ++ VNull :: rest) set_value_int) s.
Proof.
  induction ws1 as [|w1 ws1 IH]; intros ls c fp s HA HW Hw HT HD; inversion HT as [|l ? ls' ? Hl HT']; subst; cbn [map app for_words].
  - eapply runs_overflows; [eapply (runs_lift _ _ _ (fun x s' => x = false /\ s' = s)); [reflexivity|done]|]. intros ? ? [-> ->].
    destruct s as [o h lg].
    eapply runs_overflows; [eapply (runs_deref_str _ _ _ _ _ (fun x s' => x = w /\ s' = Hst o h lg)); [exact Hl|done]|]. intros ? ? [-> ->].
    apply overflows_bind. by eapply word_overflows.
  - apply Forall_cons in HW as [[Hok Hpc] HW].
    eapply runs_overflows; [eapply (runs_lift _ _ _ (fun x s' => x = false /\ s' = s)); [reflexivity|done]|]. intros ? ? [-> ->].
    destruct s as [o h lg].
    eapply runs_overflows; [eapply (runs_deref_str _ _ _ _ _ (fun x s' => x = w1 /\ s' = Hst o h lg)); [exact Hl|done]|]. intros ? ? [-> ->].
    eapply runs_overflows; [by apply (int_handles D _ c fp w1)|]. intros st s1 (c1 & fp1 & lk1 & G1 & P1).
    destruct P1 as (-> & [(-> & es & _ & _)|(_ & Hno & _)]); [|done]. change (0 =? SUCCESS) with true. cbv iota.
    assert (HD1 : forall l', l' ∈ ls' -> l' ∉ fp1).
    { intros l' Hl'. destruct G1 as (_ & M1 & _).
      destruct (texts_at_live _ _ _ _ HT' Hl') as [b Hb].
      assert (l' ∉ fp1 ++ []). { eapply moves_disjoint; [exact M1|set_solver|simpl; by eapply live_lt]. }
      set_solver. }
    eapply IH; [by destruct G1|done|done| |done].
    eapply texts_at_ext; [|exact HT']. intros l' Hl'. destruct (texts_at_live _ _ _ _ HT' Hl') as [b Hb].
    simpl in Hb |- *. rewrite Hb. destruct G1 as (_ & M1 & _). eapply moves_other; [exact M1|set_solver|exact Hb].
Qed.
Lemma list_overflows v ws1 w ws2 a c fp s : arr_at D c fp s -> elements v (ws1 ++ w :: ws2) ->
  Forall (fun w => int_ok w /\ int_piece w <> None) ws1 -> parse_int_range w = Some (a, INT_MAX) ->
  overflows (list_handler set_value_int apply_array_flags v) s.
Proof.
  intros HA HE HW Hw. unfold list_handler. apply overflows_bind. unfold elements in HE. destruct (strchr v comma) eqn:Hc.
  - rewrite bool_decide_eq_true_2 in HE.
    2:{ destruct (decide (comma ∈ v)); [done|]. apply strchr_none in n0. congruence. }
    destruct s as [o h lg].
    eapply runs_overflows; [apply split_spec|]. intros r s1 (h1 & -> & Ho & Hr).
    pose proof HA as (HC & Hoom & HD0). simpl in *. destruct (Ho Hoom) as [Hn Hoom1].
    destruct r as [x|]; [|done]. destruct Hr as (p & ls & ws' & -> & Hcut & HN & Hp & HT & M1).
    assert (ws' = ws1 ++ w :: ws2) as ->.
    { eapply cut_fun; [|exact HE]. eapply cut_ext; [|exact Hcut].
      intros ch. unfold sepr, comma. rewrite elem_of_list_singleton. naive_solver. }
    eapply runs_overflows; [eapply (runs_deref_arr _ _ _ _ _ (fun x s' => x = map PHeap ls ++ [VNull] /\ s' = Hst o h1 lg)); done|].
    intros ? ? [-> ->]. apply overflows_bind.
    assert (Hdis : forall l, l ∈ p :: ls -> l ∉ fp).
    { intros l Hl Hi. destruct (mv_own _ _ _ _ M1 l Hl) as [[]%elem_of_nil|Hge].
      pose proof (arr_lt _ _ _ _ _ HC Hi) as Hlt. simpl in Hlt. lia. }
    eapply (words_overflow [] ws1 w ws2 a ls c fp); [|done|done|done|].
    + split; [|done]. simpl. eapply arr_moves; [exact M1| |done]. intros l _ []%elem_of_nil.
    + intros l Hl. apply Hdis. by right.
  - rewrite bool_decide_eq_false_2 in HE by (by apply strchr_none). destruct ws1 as [|? [|]]; [|done..].
    injection HE as <-. by eapply word_overflows.
Qed.
End greatest.

Section whole.
Context `{Libc}.

Lemma items_ok_before a argv its rest : accepted a -> no_strays (decls a) (a_root a) -> harmless_items a its ->
  reads (decls a) (a_root a) 0 false argv (its ++ rest) -> forall x, x ∈ its -> item_ok (decls a) x.
Proof.
  intros Ha Hns Hh Hr x Hx0. pose proof (accepted_ready _ Ha Hns) as [_ _ HR HS _ _].
  assert (Hx : x ∈ its ++ rest) by (apply elem_of_app; by left). destruct x as [t i v|t i|c m]; cbn [item_ok].
  - destruct (accepted_handlers a argv _ t i v Ha Hns (or_introl Hr) Hx) as (T & d & f & HT & Hd & _).
    exists T, d. split; [done|]. split; [done|]. split.
    + intros ->. destruct (reads_none _ _ _ _ _ _ Hr t i Hx) as (T' & d' & HT' & Hd' & Hf). rewrite HT in HT'. injection HT' as <-.
      rewrite Hd in Hd'. injection Hd' as <-. exact Hf.
    + intros s ->. exact (Hh t i s T d Hx0 HT Hd).
  - assert (He : (t, i) ∈ entered (its ++ rest)).
    { unfold entered. apply elem_of_list_omap. eexists. split; [exact Hx|done]. }
    destruct (chain_subtables _ _ _ (reads_chain _ _ _ _ _ _ HS HR Hr) _ He) as (t' & Hsub & HT').
    unfold subtable in Hsub. cbn [fst snd] in Hsub. destruct (decls a !! t) as [T|] eqn:HT; [|done].
    destruct (T !! i) as [d|] eqn:Hd; [|done]. exists T, d, t'. split_and!; try done.
    pose proof (reads_enter _ _ _ _ _ _ Hr _ _ _ _ Hx HT Hd) as Hty.
    pose proof (accepted_entries a t T i d Ha) as Hok. rewrite Hty in Hok. apply Hok; [|done|done]. apply Hns. eauto.
  - destruct (reads_codes _ _ _ _ _ _ c m Hr Hx) as [->|[->| ->]]; done.
Qed.

Lemma part_fine w ns : int_part w ns -> INT_MAX ∉ ns -> int_ok w /\ int_piece w <> None.
Proof.
  intros Hp Hn. apply int_part_range in Hp as (a & b & Ha & Hb & Hab & E & ->). split; [|unfold int_piece; by rewrite E].
  intros a' b'. rewrite E. intros [= <- <-]. unfold in_32_bits in Hb. change (2 ^ 31) with 2147483648 in Hb. unfold INT_MAX in *.
  destruct (Z.eq_dec b 2147483647) as [->|]; [|lia]. exfalso. apply Hn. unfold from_to. apply elem_of_list_In, in_map_iff.
  exists (Z.to_nat (2147483647 - a)). split; [lia|]. apply in_seq. lia.
Qed.
Lemma part_greatest w ns : int_part w ns -> INT_MAX ∈ ns -> exists a, parse_int_range w = Some (a, INT_MAX).
Proof.
  intros Hp Hn. apply int_part_range in Hp as (a & b & Ha & Hb & Hab & E & ->). exists a. rewrite E. do 2 f_equal.
  unfold from_to in Hn. apply elem_of_list_In, in_map_iff in Hn as (j & Ej & Hj%in_seq).
  unfold in_32_bits in Hb. change (2 ^ 31) with 2147483648 in Hb. unfold INT_MAX in *. lia.
Qed.
Lemma exec_overflows a V F K t i o v ws1 w ws2 r : invar true a V F K -> get_option a t i = Ok o ->
  (exists act, get_active_options a = Ok act) -> library_entry (decl_of o) -> d_handler (decl_of o) = Some HArrayInt -> passes (decl_of o) (Some v) ->
  elements v (ws1 ++ w :: ws2) -> Forall (fun w => int_ok w /\ int_piece w <> None) ws1 -> parse_int_range w = Some (r, INT_MAX) ->
  execute_callbacks a t i (Some v) = UB SignedOverflow.
Proof.
  intros I Ho [act Hact] [Hl1 Hl2] Hf Hp He HW Hw. unfold execute_callbacks. rewrite Ho. cbn [rbind]. rewrite Hf.
  assert (match d_validators (decl_of o) with None => Ok (SUCCESS, [])
     | Some l => run_validators ORDER_PRE l (ArgText (Some v)) (a_heap a) end = Ok (0, [])) as ->.
  { destruct (d_validators (decl_of o)) as [l|] eqn:El; [|done].
    destruct (pre_ok (decl_of o) (Some v) (a_heap a) l) as (st & ev & Ev).
    { intros e Hin. eapply (ft_validators _ (iv_fits _ _ _ _ _ I _ _ _ Ho)); eassumption. }
    { done. }
    rewrite Ev. unfold passes, validators in *. rewrite El in *. cbn [default from_option] in *. unfold id in *.
    apply (refused_texts (fun x => x)) in Ev as [(-> & -> & _)|(_ & m & tx & l1 & e & l2 & _ & _ & -> & Eo & Hr & _)]; [done| |done].
    destruct (refusal_not _ _ _ _ _ Hr). apply Hp; [|done]. apply elem_of_app. right. left. }
  cbn [rbind]. change (negb (0 =? SUCCESS)) with false. cbv iota. cbn [apply_events fold_left]. rewrite Hact. cbn [rbind].
  pose proof (iv_entry _ _ _ _ _ I _ _ _ Ho) as HE. unfold entry_inv in HE.
  assert (shape_of (decl_of o) = Listed EInt) as Es by (unfold shape_of; by rewrite Hf).
  rewrite Es in HE. destruct HE as (c & HC & _).
  cbn [run_handler need]. 
  pose proof (list_overflows (decl_of o) v ws1 w ws2 r c (F t i) (Hst o (a_heap a) [])) as HO. unfold overflows in HO. rewrite HO; try done.
  split; [done|]. split; [apply (iv_oom _ _ _ _ _ I)|done].
Qed.
Lemma greatest a argv its t i v its2 a1 T d ws1 w ws2 nss ns : accepted a -> no_strays (decls a) (a_root a) -> ready a -> library_only (decls a) ->
  qsort_sorts -> reads (decls a) (a_root a) 0 false argv (its ++ Call t i (Some v) :: its2) -> harmless_items a its ->
  perform a its = Ok (0, a1) -> decls a !! t = Some T -> T !! i = Some d -> d_handler d = Some HArrayInt -> passes d (Some v) ->
  elements v (ws1 ++ w :: ws2) -> Forall2 int_part ws1 nss -> Forall (fun ns => INT_MAX ∉ ns) nss -> int_part w ns -> INT_MAX ∈ ns ->
  argus_parse a argv = UB SignedOverflow.
Proof.
  intros Ha Hns Hrdy Hlib HQ Hr Hh Hp HT Hd Hf Hpass He HP HN Hw Hg.
  pose proof (accepted_ready _ Ha Hns) as [Hst Herr HR HS Hac Hnm].
  destruct (part_greatest _ _ Hw Hg) as [r Er].
  assert (HW : Forall (fun w => int_ok w /\ int_piece w <> None) ws1).
  { clear -HP HN. induction HP as [|w ns ws1 nss Hw HP IH]; [constructor|]. apply Forall_cons in HN as [Hn HN]. constructor; [by eapply part_fine|auto]. }
  destruct (perform_inv its HQ true a _ _ _ (invar_ready _ Hrdy)) as (st & a1' & F1 & K1 & Hp' & D1 & R1 & S1 & T1 & I1).
  { unfold stack_ok. rewrite Hst. intros x []%elem_of_nil. }
  { by eapply items_ok_before. }
  { rewrite Hst. pose proof (accepted_entered _ _ _ Ha Hns Hr) as Hle. rewrite entered_app, app_length in Hle. cbn [length]. lia. }
  rewrite Hp in Hp'. injection Hp' as <- <-. change (0 =? 0) with true in I1. cbn [andb] in I1.
  destruct (decls_entry a1 t T i d) as (o & Ho & <-); [by rewrite D1|done|]. apply entry_get in Ho.
  assert (Hn : forall c m, Reject c m ∉ its).
  { eapply perform_no_reject; [|exact Hp]. intros c' m' Hy.
    assert (Hy' : Reject c' m' ∈ its ++ Call t i (Some v) :: its2) by (apply elem_of_app; by left).
    destruct (reads_codes _ _ _ _ _ _ _ _ Hr Hy') as [->|[->| ->]]; done. }
  assert (E : execute_callbacks a1 t i (Some v) = UB SignedOverflow).
  { eapply (exec_overflows a1); [exact I1|exact Ho|by apply stack_active| |done|done|exact He|done|exact Er].
    eapply Hlib; [exact HT|by eapply elem_of_list_lookup_2]. }
  unfold argus_parse. rewrite (parse_reads _ _ _ _ _ _ HS HR Hr). rewrite perform_app, Hp by done. cbn [rbind].
  change (0 =? 0) with true. cbv iota. cbn [perform]. by rewrite E.
Qed.
End whole.
