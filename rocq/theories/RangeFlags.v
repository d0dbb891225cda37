(** * Integer ranges under the flags SORTED and UNIQUE: proofs *)
From Coq Require Import Lia.
From Verif Require Import Api LibProofs SpecGrammar SpecAfter SpecStructure SpecValues ValueProofs SpecMemory SpecContents SpecSafe
  SpecCollections SplitProofs CollProofs CollFacts RangeProofs.

Section ranges.
Context `{Libc}.
(** With the flags: the numbers [ns] that were given, as the flags leave them. *)
Lemma int_of_id n : in_32_bits n -> int_of (Num W4 (n mod two32)) = n.
Proof. intros Hn. by apply to_int32_id. Qed.
Lemma ints_of_elems (g := fun n => Num W4 (n mod two32)) ns c : Forall in_32_bits ns -> (forall x, x ∈ c -> x ∈ map g ns) ->
  c = map g (map int_of c) /\ Forall in_32_bits (map int_of c).
Proof.
  intros H32 Hin. rewrite Forall_forall in H32. induction c as [|e c IH]; [split; [done|constructor]|].
  destruct IH as [IH1 IH2]; [intros x Hx; apply Hin; by right|].
  assert (exists n, e = g n /\ in_32_bits n) as (n & -> & Hn).
  { assert (e ∈ map g ns) as (n & -> & Hn)%elem_of_list_fmap by (apply Hin; by left). exists n. auto. }
  cbn [map]. rewrite (int_of_id n Hn : int_of (g n) = n). split; [by f_equal|by constructor].
Qed.
Lemma ints_back (g := fun n => Num W4 (n mod two32)) ns : Forall in_32_bits ns -> map int_of (map g ns) = ns.
Proof. induction 1 as [|n ns Hn _ IH]; [done|]. cbn [map]. rewrite IH. f_equal. by apply int_of_id. Qed.
Lemma reads_ints (g := fun n => Num W4 (n mod two32)) a p ns : Forall in_32_bits ns -> array_reads a p (map g ns) -> ints_read a p ns.
Proof.
  intros H32 (Hcount & Hget & _). rewrite map_length in Hcount. split; [done|].
  intros j n Hj. destruct (Hget j (g n)) as (x & Hx & Hh1); [by rewrite list_lookup_fmap, Hj|].
  exists x. split; [done|]. cbn in Hh1. subst x. unfold as_int. f_equal. apply to_int32_id.
  rewrite Forall_forall in H32. apply H32. by eapply elem_of_list_lookup_2.
Qed.
Lemma texts_ints vs nss ess : Forall2 int_texts vs nss -> Forall2 (yields HArrayInt) vs ess ->
  concat ess = map (fun n => Num W4 (n mod two32)) (concat nss) /\ Forall in_32_bits (concat nss).
Proof.
  intros Hn Hy. revert nss Hn. induction Hy as [|v es vs ess Hv _ IH]; intros nss Hn; inversion Hn as [|? ns ? nss' Hn1 Hn2]; subst; [split; [done|constructor]|].
  destruct (yields_ints v ns Hn1) as [Hy1 H1]. destruct (IH nss' Hn2) as [E H2]. cbn [concat]. rewrite map_app, E. split.
  - f_equal. by eapply yields_fun.
  - by apply Forall_app.
Qed.
Lemma appearances_back {X Y} (g : X -> Y) ns r : (forall x y, x ∈ ns -> y ∈ ns -> g x = g y -> x = y) -> (forall x, x ∈ r -> x ∈ ns) ->
  first_appearances (map g ns) (map g r) -> first_appearances ns r.
Proof.
  intros Hg Hin (Hd & Hm & Ho). split_and!.
  - by apply NoDup_fmap_1 in Hd.
  - intros x. split; [apply Hin|]. intros Hx. assert (g x ∈ map g r) as (y & E & Hy)%elem_of_list_fmap.
    { apply Hm. apply elem_of_list_fmap. by exists x. }
    by rewrite (Hg x y Hx (Hin y Hy) E).
  - intros i j x y Hij Hx Hy.
    destruct (Ho i j (g x) (g y) Hij) as (l1 & l2 & E & N1 & N2); [by rewrite list_lookup_fmap, Hx|by rewrite list_lookup_fmap, Hy|].
    apply fmap_app_inv in E as (m1 & m2 & -> & E2 & ->). symmetry in E2. apply fmap_cons_inv in E2 as (z & m3 & Ez & -> & ->).
    assert (x = z) as <-.
    { apply Hg; [apply Hin; by eapply elem_of_list_lookup_2|apply elem_of_app; right; by left|done]. }
    exists m1, m3. split_and!; [done| |]; intros Hi; [apply N1|apply N2]; apply elem_of_list_fmap; by eexists.
Qed.
Lemma ranges_flags a argv its a' p t i d nss : parsed a argv its a' -> shows a a' p t i d HArrayInt ->
  Forall2 int_texts (texts t i its) nss ->
  exists ns, ints_read a' p ns /\ treated (N.testbit (d_flags d) 9) (N.testbit (d_flags d) 10) (concat nss) ns.
Proof.
  intros Hp Hs Hn.
  assert (forall ess c, Forall2 (yields HArrayInt) (texts t i its) ess -> array_reads a' p c -> (forall x, x ∈ c -> x ∈ concat ess) ->
    ints_read a' p (map int_of c) /\ map int_of (concat ess) = concat nss /\ c = map (fun n => Num W4 (n mod two32)) (map int_of c)
    /\ Forall in_32_bits (map int_of c)) as K.
  { intros ess c Hy Hr Hin. destruct (texts_ints _ _ _ Hn Hy) as [E H32]. rewrite E in Hin.
    destruct (ints_of_elems _ _ H32 Hin) as [Ec H32']. split_and!; [|by rewrite E, ints_back|done|done].
    apply reads_ints; [done|]. by rewrite <- Ec. }
  destruct (N.testbit (d_flags d) 9) eqn:H9, (N.testbit (d_flags d) 10) eqn:H10; cbn [treated].
  - destruct (sorted_unique_array a argv its a' Hp p t i d HArrayInt Hs true EInt eq_refl (or_intror eq_refl) H9 H10) as (ess & c & Hy & Hr & Hm & Hq).
    destruct (K ess c Hy Hr (fun x => proj1 (Hm x))) as (R & E & Ec & H32). exists (map int_of c). split; [done|]. rewrite <- E. split.
    + intros n. rewrite !elem_of_list_fmap. split; intros (e & -> & He); exists e; (split; [done|by apply Hm]).
    + intros j1 j2 x y Hj H1 H2. rewrite list_lookup_fmap in H1, H2.
      destruct (c !! j1) eqn:E1, (c !! j2) eqn:E2; try done. injection H1 as <-. injection H2 as <-. by apply (Hq j1 j2).
  - destruct (sorted_array a argv its a' Hp p t i d HArrayInt Hs true EInt eq_refl H9 H10) as (ess & c & Hy & Hr & Hm & Hq).
    destruct (K ess c Hy Hr) as (R & E & Ec & H32); [intros x Hx; by rewrite Hm|]. exists (map int_of c). split; [done|]. rewrite <- E.
    split; [by apply Permutation_map|].
    intros j1 j2 x y Hj H1 H2. rewrite list_lookup_fmap in H1, H2.
    destruct (c !! j1) eqn:E1, (c !! j2) eqn:E2; try done. injection H1 as <-. injection H2 as <-.
    pose proof (Hq j1 j2 _ _ Hj E1 E2) as Hb. cbn in Hb. lia.
  - destruct (unique_array a argv its a' Hp p t i d HArrayInt Hs true EInt eq_refl (or_intror eq_refl) H9 H10) as (ess & c & Hy & Hr & Hf).
    destruct (K ess c Hy Hr (fun x => proj1 (proj1 (proj2 Hf) x))) as (R & E & Ec & H32). exists (map int_of c). split; [done|].
    pose proof Hf as Hf0. destruct (texts_ints _ _ _ Hn Hy) as [Ee H32']. rewrite Ee, Ec in Hf. revert Hf. apply appearances_back.
    + intros x y Hx Hy1 Exy. rewrite Forall_forall in H32'. rewrite <- (int_of_id x), <- (int_of_id y) by auto. by rewrite Exy.
    + intros x Hx. rewrite <- E. apply elem_of_list_fmap in Hx as (e & -> & He). apply elem_of_list_fmap. exists e.
      split; [done|]. by apply Hf0.
  - exists (concat nss). split; [|done]. by eapply ranges_read.
Qed.
End ranges.
