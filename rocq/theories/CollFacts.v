(** * Arrays, maps and iterators after a parse: the facts behind PropsCollections.v *)
From Coq Require Import Lia.
From Verif Require Import Api LibProofs FrameProofs SpecGrammar SpecAfter SpecStructure SpecValues SpecMemory SpecContents SpecSafe
  SpecCollections SplitProofs AfterProofs FlagProofs CollProofs CollMaps RangeProofs MoreFacts.

Section facts.
Context `{Libc}.
Context (a : argus) (argv : list cstr) (its : list item) (a' : argus) (HP : parsed a argv its a').
Context (p : option cstr) (t i : nat) (d : decl) (f : handler) (HS : shows a a' p t i d f).

Lemma shown_handler : d_handler d = Some f.
Proof using HS. destruct HS as (_ & o & _ & _ & Hh). done. Qed.

Section arrays.
Context (b : bool) (k : ekind) (Hk : array_handler f = Some (b, k)).
Lemma accumulated : N.testbit (d_flags d) 9 = false -> N.testbit (d_flags d) 10 = false ->
  exists ess, Forall2 (yields f) (texts t i its) ess /\ array_reads a' p (concat ess).
Proof using HP HS Hk.
  intros H9 H10. destruct (array_shown _ _ _ _ _ _ _ _ _ _ _ HP HS Hk) as (o & c & fp & _ & _ & _ & Hf & Hr).
  destruct (filled_spec _ _ _ _ _ shown_handler Hk _ Hf) as (ess & Hy & Hc & _). exists ess. split; [done|]. by rewrite <- (Hc H9 H10).
Qed.
Lemma sorted_array : N.testbit (d_flags d) 9 = true -> N.testbit (d_flags d) 10 = false ->
  exists ess c, Forall2 (yields f) (texts t i its) ess /\ array_reads a' p c /\ Permutation (concat ess) c /\ in_sequence (precedes k) c.
Proof using HP HS Hk.
  intros H9 H10. destruct (array_shown _ _ _ _ _ _ _ _ _ _ _ HP HS Hk) as (o & c & fp & _ & _ & _ & Hf & Hr).
  destruct (filled_spec _ _ _ _ _ shown_handler Hk _ Hf) as (ess & Hy & _ & Hs & Hp & _). exists ess, c. split_and!; auto.
Qed.
Lemma unique_array : k = EText \/ k = EInt -> N.testbit (d_flags d) 9 = false -> N.testbit (d_flags d) 10 = true ->
  exists ess c, Forall2 (yields f) (texts t i its) ess /\ array_reads a' p c /\ first_appearances (concat ess) c.
Proof using HP HS Hk.
  intros Hti H9 H10. destruct (array_shown _ _ _ _ _ _ _ _ _ _ _ HP HS Hk) as (o & c & fp & _ & _ & _ & Hf & Hr).
  destruct (filled_spec _ _ _ _ _ shown_handler Hk _ Hf) as (ess & Hy & _ & _ & _ & Hu & _). exists ess, c. split_and!; [done|done|].
  rewrite (Hu H9 H10). apply appear_firsts. intros x y Hx Hy'.
  assert (Hkd : Forall (of_kind k) (concat ess)).
  { clear -Hy Hk. apply Forall_concat. induction Hy as [|v es vs ess (ws & ess' & _ & Hp & ->) _ IH]; constructor; [|done].
    apply Forall_concat. clear -Hp Hk. induction Hp; constructor; [|done]. by eapply ArrayHandlers.piece_kind. }
  rewrite Forall_forall in Hkd. apply alike_text_int; auto.
Qed.
Lemma sorted_unique_array : k = EText \/ k = EInt -> N.testbit (d_flags d) 9 = true -> N.testbit (d_flags d) 10 = true ->
  exists ess c, Forall2 (yields f) (texts t i its) ess /\ array_reads a' p c /\ (forall x, x ∈ c <-> x ∈ concat ess) /\
    (forall j1 j2 x y, (j1 < j2)%nat -> c !! j1 = Some x -> c !! j2 = Some y -> precedes k x y).
Proof using HP HS Hk.
  intros Hti H9 H10. destruct (array_shown _ _ _ _ _ _ _ _ _ _ _ HP HS Hk) as (o & c & fp & _ & _ & _ & Hf & Hr).
  pose proof (filled_kind _ _ _ _ _ _ shown_handler Hk Hf) as Hkd. rewrite Forall_forall in Hkd.
  destruct (filled_spec _ _ _ _ _ shown_handler Hk _ Hf) as (ess & Hy & _ & Hs & _ & _ & Hd & H6 & H7). exists ess, c. split_and!; [done|done| |].
  - intros x. split; [by apply H6|]. apply H7. intros; by apply alike_text_int.
  - intros j1 j2 x y Hj Hx Hy'. pose proof (Hkd x ltac:(by eapply elem_of_list_lookup_2)). pose proof (Hkd y ltac:(by eapply elem_of_list_lookup_2)).
    apply ordered_text_int; [done|done|done| |by eapply (Hs H9)].
    intros ->. specialize (Hd H10 j2 y Hy'). rewrite <- not_true_iff_false in Hd. apply Hd. apply existsb_exists. exists y. split.
    + apply elem_of_list_In. eapply elem_of_list_lookup_2. rewrite lookup_take by done. exact Hx.
    + by apply alike_text_int.
Qed.
(** Doubles: what stays was given, and no two that stay are close. *)
Lemma unique_floats : N.testbit (d_flags d) 10 = true ->
  exists ess c, Forall2 (yields f) (texts t i its) ess /\ array_reads a' p c /\ (forall x, x ∈ c -> x ∈ concat ess) /\
    (forall j1 j2 x y, (j1 < j2)%nat -> c !! j1 = Some x -> c !! j2 = Some y -> alike k y x = false).
Proof using HP HS Hk.
  intros H10. destruct (array_shown _ _ _ _ _ _ _ _ _ _ _ HP HS Hk) as (o & c & fp & _ & _ & _ & Hf & Hr).
  destruct (filled_spec _ _ _ _ _ shown_handler Hk _ Hf) as (ess & Hy & _ & Hs & _ & _ & Hd & H6 & _). exists ess, c. split_and!; [done|done|done|].
  intros j1 j2 x y Hj Hx Hy'. specialize (Hd H10 j2 y Hy'). apply not_true_iff_false. intros Ha. rewrite <- not_true_iff_false in Hd. apply Hd.
  apply existsb_exists. exists x. split; [|done]. apply elem_of_list_In. eapply elem_of_list_lookup_2. rewrite lookup_take by done. exact Hx.
Qed.
Lemma iterated_array : exists it c xs, argus_array_it a' p = Ok it /\ array_reads a' p c /\ Forall2 (holds (a_heap a')) xs c /\
  (exists it', array_visits (a_heap a') (Some it) xs it' /\ argus_array_next (a_heap a') it' = Ok (false, it')) /\
  forall ys it1, array_visits (a_heap a') (Some it) ys it1 -> exists it2,
    array_visits (a_heap a') (argus_array_reset it1) xs it2 /\ argus_array_next (a_heap a') it2 = Ok (false, it2).
Proof using HP HS Hk.
  destruct (array_shown _ _ _ _ _ _ _ _ _ _ _ HP HS Hk) as (o & c & fp & Ho & Hd & Hc & Hf & Hr).
  destruct (shown_entry _ _ _ _ _ _ _ _ _ HP HS) as (o' & fp' & lk & Ho' & Hd' & Hfit & Hf' & _).
  assert (Hv : has (d_vtype (decl_of o)) (N.lor VT_ARRAY VT_VARIADIC) = true).
  { rewrite Hd. pose proof (ft_shape _ Hfit) as Hft. assert (shape_of d = Listed k) as Hsh by (unfold shape_of; by rewrite Hf', Hk).
    rewrite Hsh in Hft. by eapply array_kind_has, Hft. }
  destruct (array_iterates a' p t i o c fp (proj1 HS) Ho Hv Hc) as (it & xs & Hit & Hxs & Hall). exists it, c, xs. split_and!; [done|done|done| |done].
  destruct (Hall [] (Some it)) as (it2 & Hv2 & Hn2); [constructor|]. exists it2. split; [|done].
  assert (argus_array_reset (Some it) = Some it) as E; [|by rewrite E in Hv2].
  unfold argus_array_it, lookup_option in Hit. rewrite (proj1 HS) in Hit. cbn [rbind] in Hit. rewrite Ho in Hit. cbn [rbind] in Hit.
  rewrite Hv in Hit. injection Hit as <-. done.
Qed.
End arrays.

Section maps.
Context (k : ekind) (Hk : map_handler f = Some k).
Lemma finite_map : N.testbit (d_flags d) 13 = false ->
  exists pss c, Forall2 (pairs_text f) (texts t i its) pss /\ map_reads a' p c /\ NoDup (map fst c) /\
    (forall key e, (key, e) ∈ c <-> last_value key (concat pss) = Some e) /\
    (N.testbit (d_flags d) 12 = false -> N.testbit (d_flags d) 11 = false -> first_appearances (map fst (concat pss)) (map fst c)) /\
    (N.testbit (d_flags d) 12 = true -> in_sequence text_before (map fst c)) /\
    (N.testbit (d_flags d) 12 = false -> N.testbit (d_flags d) 11 = true -> in_sequence (precedes k) (map snd c)).
Proof using HP HS Hk.
  intros H13. destruct (map_shown _ _ _ _ _ _ _ _ _ _ HP HS Hk) as (o & c & n & fp & _ & _ & _ & Hf & Hr).
  destruct (mfilled_spec _ _ _ _ shown_handler Hk _ _ Hf) as (pss & Hy & _ & Hrep & Happ & Hs & Hv & _).
  exists pss, c. destruct (Hrep H13) as [Hn Hl]. split_and!; auto.
Qed.
Lemma unique_values : N.testbit (d_flags d) 13 = true -> k <> EFloat ->
  exists pss c, Forall2 (pairs_text f) (texts t i its) pss /\ map_reads a' p c /\ NoDup (map fst c) /\ NoDup (map snd c) /\
    (forall q, q ∈ c -> q ∈ concat pss).
Proof using HP HS Hk.
  intros H13 Hn. destruct (map_shown _ _ _ _ _ _ _ _ _ _ HP HS Hk) as (o & c & n & fp & _ & _ & _ & Hf & Hr).
  destruct (mfilled_spec _ _ _ _ shown_handler Hk _ _ Hf) as (pss & Hy & [Hnd Hin] & _ & _ & _ & _ & Hu).
  exists pss, c. split_and!; auto.
Qed.
Lemma iterated_map : exists it c xs, argus_map_it a' p = Ok it /\ map_reads a' p c /\ Forall2 (holds_pair (a_heap a')) xs c /\
  (exists it', map_visits (a_heap a') (Some it) xs it' /\ argus_map_next (a_heap a') it' = Ok (false, it')) /\
  forall ys it1, map_visits (a_heap a') (Some it) ys it1 -> exists it2,
    map_visits (a_heap a') (argus_map_reset it1) xs it2 /\ argus_map_next (a_heap a') it2 = Ok (false, it2).
Proof using HP HS Hk.
  destruct (map_shown _ _ _ _ _ _ _ _ _ _ HP HS Hk) as (o & c & n & fp & Ho & Hd & Hc & Hf & Hr).
  destruct (shown_entry _ _ _ _ _ _ _ _ _ HP HS) as (o' & fp' & lk & Ho' & Hd' & Hfit & Hf' & _).
  assert (Hv : has (d_vtype (decl_of o)) VT_MAP = true).
  { rewrite Hd. pose proof (ft_shape _ Hfit) as Hft. assert (shape_of d = Mapped k) as Hsh.
    { unfold shape_of. rewrite Hf', Hk. by destruct f. }
    rewrite Hsh in Hft. by eapply map_kind_has, Hft. }
  destruct (map_iterates a' p t i o c fp (proj1 HS) Ho Hv Hc) as (it & xs & Hit & Hxs & Hall). exists it, c, xs. split_and!; [done|done|done| |done].
  destruct (Hall [] (Some it)) as (it2 & Hv2 & Hn2); [constructor|]. exists it2. split; [|done].
  assert (argus_map_reset (Some it) = Some it) as E; [|by rewrite E in Hv2].
  unfold argus_map_it, lookup_option in Hit. rewrite (proj1 HS) in Hit. cbn [rbind] in Hit. rewrite Ho in Hit. cbn [rbind] in Hit.
  rewrite Hv in Hit. injection Hit as <-. done.
Qed.
End maps.

(** String arrays hold the elements of their texts. *)
Lemma string_array wss : f = HArrayString -> N.testbit (d_flags d) 9 = false -> N.testbit (d_flags d) 10 = false ->
  Forall2 elements (texts t i its) wss -> array_reads a' p (map Text (concat wss)).
Proof using HP HS.
  intros Ef H9 H10 Hw. destruct (accumulated true EText) as (ess & Hy & Hr); [by subst|done|done|].
  assert (concat ess = map Text (concat wss)) as E; [|by rewrite <- E].
  clear Hr. revert wss Hw. induction Hy as [|v es vs ess Hv _ IH]; intros wss Hw; inversion Hw as [|? ws ? wss' Hw1 Hw2]; subst; [done|].
  cbn [concat]. rewrite map_app, (IH _ Hw2). f_equal. eapply yields_fun; [exact Hv|].
  exists ws, (map (fun w => [Text w]) ws). split_and!; [done| |].
  - clear. induction ws; constructor; [done|done].
  - clear. induction ws as [|w ws IH]; cbn; [done|]. by rewrite IH.
Qed.
End facts.

(** Values of boolean maps are the boolean words. *)
Lemma bool_value `{Libc} v e : map_value HMapBool v = Some e <-> exists b, bool_word v b /\ e = Num W1 (Z.b2z b).
Proof.
  cbn [map_value]. destruct (string_to_bool v) as [b|] eqn:E.
  - apply ValueProofs.string_to_bool_word in E. split.
    + intros [= <-]. eauto.
    + intros (b' & Hb & ->). by rewrite (ValueProofs.bool_word_fun _ _ _ E Hb).
  - split; [done|]. intros (b & Hb & _). apply ValueProofs.string_to_bool_word in Hb. congruence.
Qed.
(** Values of integer maps are integers. *)
Lemma int_value `{Libc} n : - 2 ^ 63 <= n < 2 ^ 63 -> map_value HMapInt (decimal_text n) = Some (Num W8 (n mod two64)).
Proof.
  intros Hn. cbn [map_value]. pose proof (ValueProofs.strtoll_decimal n [] I) as E. rewrite app_nil_r in E. rewrite E. cbn [fst snd].
  rewrite bool_decide_eq_true_2.
  - by rewrite ValueProofs.saturated_id.
  - split; [|done]. destruct (number_start n) as (c & r & -> & _). done.
Qed.

(** Access with the wrong type or by an unknown path. *)
Lemma wrong_access a p t i o : find_option_by_active_path a p = Ok (Some (t, i)) -> entry a t i o ->
  (has (d_vtype (decl_of o)) (N.lor VT_ARRAY VT_VARIADIC) = false -> forall j, argus_array_get a p j = Ok (VNull, set_err a E_INVALID_TYPE)) /\
  (has (d_vtype (decl_of o)) VT_MAP = false -> forall key, argus_map_get a p key = Ok (VNull, set_err a E_INVALID_TYPE)).
Proof.
  intros Hp Ho. apply AfterFacts.entry_get in Ho.
  assert (Hl : lookup_option (set_err a 0) p = Ok (Some o)).
  { unfold lookup_option. rewrite path_err, Hp. cbn [rbind]. change (get_option (set_err a 0)) with (get_option a). by rewrite Ho. }
  split; intros Hv x.
  - unfold argus_array_get. rewrite Hl. cbn [rbind]. rewrite Hv. done.
  - unfold argus_map_get. rewrite Hl. cbn [rbind]. rewrite Hv. done.
Qed.
Lemma missing_access a p : find_option_by_active_path a p = Ok None ->
  (forall j, argus_array_get a p j = Ok (VNull, set_err a E_NO_VALUE)) /\
  (forall key, argus_map_get a p key = Ok (VNull, set_err a E_NO_VALUE)).
Proof.
  intros Hp. assert (Hl : lookup_option (set_err a 0) p = Ok None) by (unfold lookup_option; by rewrite path_err, Hp).
  split; intros x.
  - unfold argus_array_get. rewrite Hl. done.
  - unfold argus_map_get. rewrite Hl. done.
Qed.
