(** * Lists of doubles under UNIQUE: the facts behind C14_floats *)
From stdpp Require Import relations.
From Verif Require Import Api LibProofs FrameProofs SpecGrammar SpecAfter SpecStructure SpecValues SpecMemory SpecContents SpecSafe
  SpecCollections SpecLinks SplitProofs AfterProofs FlagProofs CollProofs CollMaps RangeProofs MoreFacts CollFacts.

Lemma firsts_cover {E} (same : E -> E -> bool) l : forall kept x, x ∈ l ->
  x ∈ firsts same kept l \/ exists y, y ∈ kept ++ firsts same kept l /\ same x y = true.
Proof.
  induction l as [|z l IH]; intros kept x Hx; [by apply elem_of_nil in Hx|]. cbn [firsts].
  destruct (existsb (same z) kept) eqn:Ek.
  - apply elem_of_cons in Hx as [->|Hx]; [|by apply IH]. right. apply existsb_exists in Ek as (y & Hy & Hs).
    exists y. split; [|done]. apply elem_of_app. left. by apply elem_of_list_In.
  - apply elem_of_cons in Hx as [->|Hx]; [left; left|].
    destruct (IH (kept ++ [z]) x Hx) as [?|(y & Hy & Hs)]; [left; by right|]. right. exists y. split; [|done].
    by rewrite <- app_assoc in Hy.
Qed.
Lemma linked_more g g' x y : (forall z, z ∈ g -> z ∈ g') -> linked g x y -> linked g' x y.
Proof. intros HG. apply rtc_subrel. intros u v (? & ? & ?). auto. Qed.

Section links.
Context `{Libc}.
Lemma filled_linked d f b vs : d_handler d = Some f -> array_handler f = Some (b, EFloat) ->
  N.testbit (d_flags d) 10 = true -> forall c, array_filled d vs c ->
  exists ess, Forall2 (yields f) vs ess /\
    (N.testbit (d_flags d) 9 = true -> in_sequence (precedes EFloat) c) /\
    (forall i x, c !! i = Some x -> existsb (alike EFloat x) (take i c) = false) /\
    (forall x, x ∈ c -> x ∈ concat ess) /\
    (forall x, x ∈ concat ess -> exists y, y ∈ c /\ linked (concat ess) x y).
Proof.
  intros Hf Hk H10. induction vs as [|v vs IH] using rev_ind; intros c HF.
  { apply filled_none in HF as ->. exists []. split; [constructor|]. split_and!; try done. intros x Hx. by apply elem_of_nil in Hx. }
  destruct (filled_last _ _ _ _ _ _ _ Hf Hk HF) as (c0 & es & HF0 & Hy & c1 & Hs & ->). clear HF. rewrite H10.
  destruct (IH c0 HF0) as (ess & HE & _ & _ & A3 & A4).
  exists (ess ++ [es]). rewrite concat_app. cbn [concat]. rewrite app_nil_r. split; [by apply Forall2_app; [|repeat constructor]|].
  assert (Hc1 : forall x, x ∈ c1 <-> x ∈ c0 ++ es).
  { intros x. destruct (N.testbit (d_flags d) 9); [|by subst]. destruct Hs as [Hp _]. by rewrite Hp. }
  assert (Hin : forall x, x ∈ c1 -> x ∈ concat ess ++ es).
  { intros x Hx. apply Hc1 in Hx. apply elem_of_app in Hx as [?|?]; apply elem_of_app; auto. }
  assert (Hsub : forall x, x ∈ firsts (alike EFloat) [] c1 -> x ∈ c1).
  { intros x Hx. eapply elem_of_submseteq; [exact Hx|apply sublist_submseteq, firsts_sub]. }
  split_and!.
  - intros H9. rewrite H9 in Hs. eapply sequence_sub; [apply firsts_sub|apply Hs].
  - intros i x Hx. by apply firsts_new in Hx.
  - auto.
  - intros x Hx. assert (exists z, z ∈ c1 /\ linked (concat ess ++ es) x z) as (z & Hz & Hl).
    { apply elem_of_app in Hx as [Hx|Hx].
      - destruct (A4 x Hx) as (z & Hz & Hl). exists z. split; [apply Hc1, elem_of_app; by left|].
        eapply linked_more; [|exact Hl]. intros ? ?. apply elem_of_app. by left.
      - exists x. split; [apply Hc1, elem_of_app; by right|apply rtc_refl]. }
    destruct (firsts_cover (alike EFloat) c1 [] z Hz) as [Hz'|(y & Hy' & Ha)]; [by exists z|].
    exists y. split; [done|]. eapply rtc_r; [exact Hl|]. split; [auto|]. split; [auto|done].
Qed.

Context (a : argus) (argv : list cstr) (its : list item) (a' : argus) (HP : parsed a argv its a').
Context (p : option cstr) (t i : nat) (d : decl) (f : handler) (HS : shows a a' p t i d f).
Context (b : bool) (Hk : array_handler f = Some (b, EFloat)).
Lemma floats_firsts : N.testbit (d_flags d) 9 = false -> N.testbit (d_flags d) 10 = true ->
  exists ess c, Forall2 (yields f) (texts t i its) ess /\ array_reads a' p c /\
    c = firsts (fun x y => fclose (bits_of x) (bits_of y)) [] (concat ess) /\
    forall x, x ∈ concat ess -> x ∈ c \/ exists y, y ∈ c /\ near x y.
Proof using HP HS Hk.
  intros H9 H10. destruct (array_shown _ _ _ _ _ _ _ _ _ _ _ HP HS Hk) as (o & c & fp & _ & _ & _ & Hf & Hr).
  destruct (filled_spec _ _ _ _ _ (shown_handler _ _ _ _ _ _ _ HS) Hk _ Hf) as (ess & Hy & _ & _ & _ & Hu & _).
  exists ess, c. split_and!; [done|done|by apply Hu|]. rewrite (Hu H9 H10). intros x Hx.
  exact (firsts_cover (alike EFloat) _ [] x Hx).
Qed.
Lemma floats_linked : N.testbit (d_flags d) 10 = true ->
  exists ess c, Forall2 (yields f) (texts t i its) ess /\ array_reads a' p c /\
    (forall x, x ∈ c -> x ∈ concat ess) /\
    (forall j1 j2 x y, (j1 < j2)%nat -> c !! j1 = Some x -> c !! j2 = Some y -> ~ near y x) /\
    (N.testbit (d_flags d) 9 = true -> in_sequence (precedes EFloat) c) /\
    (forall x, x ∈ concat ess -> exists y, y ∈ c /\ linked (concat ess) x y).
Proof using HP HS Hk.
  intros H10. destruct (array_shown _ _ _ _ _ _ _ _ _ _ _ HP HS Hk) as (o & c & fp & _ & _ & _ & Hf & Hr).
  destruct (filled_linked d f b _ (shown_handler _ _ _ _ _ _ _ HS) Hk H10 _ Hf) as (ess & Hy & H1 & H2 & H3 & H4).
  exists ess, c. split_and!; [done|done|done| |done|done].
  intros j1 j2 x y Hj Hx Hy' Ha. specialize (H2 j2 y Hy'). rewrite <- not_true_iff_false in H2. apply H2.
  apply existsb_exists. exists x. split; [|done]. apply elem_of_list_In. eapply elem_of_list_lookup_2. rewrite lookup_take by done. exact Hx.
Qed.
End links.
