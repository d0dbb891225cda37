(** * Proofs: lists and maps depend only on the texts of their own option *)
From Coq Require Import Lia.
From Verif Require Import Api LibProofs SpecGrammar SpecAfter SpecStructure SpecMemory SpecContents SpecSafe SpecCollections SplitProofs HeapProofs ListProofs ArrayProofs
  FlagProofs ArrayHandlers MapProofs OrderProofs RangeProofs CollProofs CollMaps.

(** Two arrangements of the same elements in order are the same. *)
Lemma sequence_unique {E} `{EqDecision E} (before : E -> E -> Prop) (l l' : list E) : Permutation l l' ->
  (forall x y, x ∈ l -> y ∈ l -> x <> y -> before x y \/ before y x) -> in_sequence before l -> in_sequence before l' -> l = l'.
Proof.
  revert l'. induction l as [|x l IH]; intros l' HP HT HS HS'.
  { by apply Permutation_nil_l in HP as ->. }
  destruct l' as [|y l']; [by apply Permutation_nil_r in HP|].
  assert (x = y) as <-.
  { assert (Hy : y ∈ x :: l) by (rewrite HP; left). assert (Hx : x ∈ y :: l') by (rewrite <- HP; left).
    destruct (decide (x = y)) as [|Hne]; [done|]. exfalso.
    apply elem_of_cons in Hy as [->|Hy]; [done|]. apply elem_of_cons in Hx as [->|Hx]; [done|].
    apply elem_of_list_lookup in Hx as [j' Hj'].
    pose proof (HS' 0%nat (S j') y x ltac:(lia) eq_refl Hj') as N2.
    destruct (HT x y) as [?|?]; [left|right; done|done|done|].
    apply elem_of_list_lookup in Hy as [j Hj]. by apply (HS 0%nat (S j) x y ltac:(lia) eq_refl Hj). }
  f_equal. apply IH.
  - by apply Permutation_cons_inv in HP.
  - intros u v Hu Hv. apply HT; by right.
  - intros i j a b Hij Hi Hj. by apply (HS (S i) (S j) a b ltac:(lia)).
  - intros i j a b Hij Hi Hj. by apply (HS' (S i) (S j) a b ltac:(lia)).
Qed.

Section lists.
Context `{Libc}.

Lemma filled_fun d f b k vs : d_handler d = Some f -> array_handler f = Some (b, k) ->
  (N.testbit (d_flags d) 9 = true -> k = EText \/ k = EInt) ->
  forall c c', array_filled d vs c -> array_filled d vs c' -> c = c'.
Proof.
  intros Hf Hk Hs. induction vs as [|v vs IH] using rev_ind; intros c c' F F'.
  { apply filled_none in F as ->. by apply filled_none in F' as ->. }
  pose proof F as G. destruct (filled_last _ _ _ _ _ _ _ Hf Hk F) as (c0 & es & F0 & Y & c1 & S1 & ->).
  destruct (filled_last _ _ _ _ _ _ _ Hf Hk F') as (c0' & es' & F0' & Y' & c1' & S1' & ->).
  rewrite (IH _ _ F0' F0) in S1'. rewrite (yields_fun _ _ _ _ Y' Y) in S1'.
  assert (c1 = c1') as ->; [|done]. destruct (N.testbit (d_flags d) 9); [|congruence].
  destruct S1 as [P1 Q1], S1' as [P1' Q1']. apply (sequence_unique (precedes k)); [by rewrite <- P1, P1'| |done|done].
  assert (Hkind : forall x, x ∈ c1 -> of_kind k x).
  { intros x. rewrite <- P1, elem_of_app. intros [Hx|Hx].
    - pose proof (filled_kind _ _ _ _ _ _ Hf Hk F0) as HF. rewrite Forall_forall in HF. auto.
    - destruct Y as (ws & ess & _ & Hp & ->). apply elem_of_list_In, in_concat in Hx as (e & He & Hx). apply elem_of_list_In in He, Hx.
      apply elem_of_list_lookup in He as [j Hj]. destruct (Forall2_lookup_r _ _ _ _ _ Hp Hj) as (w & _ & Hw).
      pose proof (piece_kind _ _ _ _ _ Hk Hw) as HF. rewrite Forall_forall in HF. auto. }
  intros x y Hx Hy Hne. specialize (Hs eq_refl).
  assert (Hd : precedes k y x \/ ~ precedes k y x).
  { destruct Hs as [-> | ->]; cbn.
    - rewrite <- strcmp_before. lia.
    - lia. }
  destruct Hd as [?|Hd]; [by right|left]. apply ordered_text_int; auto.
Qed.
Lemma adds_fun f ws c c1 n1 : adds f ws c c1 n1 -> forall c2 n2, adds f ws c c2 n2 -> c1 = c2.
Proof.
  induction 1 as [c|w ws k v e c c' n Hkv Hv Had IH]; intros c2 n2 H2; inversion H2 as [|w' ws' k' v' e' c0 c0' n' Hkv' Hv' Had']; subst; [done|].
  assert (k' = k /\ v' = v) as [-> ->].
  { destruct Hkv as [-> Hk], Hkv' as [E Hk']. clear -Hk Hk' E. revert k' Hk' E. induction k as [|x k IHk]; intros [|x' k'] Hk' E; cbn in E.
    - by injection E.
    - injection E as E1 _. destruct Hk'. rewrite E1. left.
    - injection E as E1 _. destruct Hk. rewrite E1. left.
    - injection E as <- E. apply IHk in E as [-> ->]; [done| |]; by eapply not_elem_of_cons. }
  rewrite Hv in Hv'. injection Hv' as <-. by eapply IH.
Qed.
Lemma mfilled_fun d f k vs : d_handler d = Some f -> map_handler f = Some k ->
  (N.testbit (d_flags d) 11 = true -> N.testbit (d_flags d) 12 = true) ->
  forall c n c' n', map_filled d vs c n -> map_filled d vs c' n' -> c = c'.
Proof.
  intros Hf Hk Hs. induction vs as [|v vs IH] using rev_ind; intros c n c' n' F F'.
  { apply mfilled_none in F as [-> _]. by apply mfilled_none in F' as [-> _]. }
  destruct (mfilled_spec _ _ _ _ Hf Hk _ _ F) as (pss & _ & [Hnd _] & _).
  destruct (mfilled_last _ _ _ _ _ _ _ Hf Hk F) as (c0 & m & c1 & n1 & F0 & (ws & Hel & Had) & Hfl & _).
  destruct (mfilled_last _ _ _ _ _ _ _ Hf Hk F') as (c0' & m' & c1' & n1' & F0' & (ws' & Hel' & Had') & Hfl' & _).
  rewrite (IH _ _ _ _ F0' F0) in Had'.
  assert (ws' = ws) as -> by (unfold elements in *; case_bool_decide; [by eapply cut_fun|congruence]).
  rewrite (adds_fun _ _ _ _ _ Had' _ _ Had) in Hfl'. unfold map_flagged in *. cbv zeta in *.
  set (u := if N.testbit (d_flags d) 13 then _ else _) in *. clearbody u.
  destruct (N.testbit (d_flags d) 12).
  - destruct Hfl as [P1 Q1], Hfl' as [P1' Q1']. apply (sequence_unique (fun p q => text_before (fst p) (fst q))); [by rewrite <- P1, P1'| |done|done].
    intros x y Hx Hy Hne. assert (fst x <> fst y) as Hfst.
    { intros E. apply Hne. apply elem_of_list_lookup in Hx as [i Hi], Hy as [j Hj].
      assert (i = j) as ->; [|congruence]. eapply NoDup_lookup; [exact Hnd| |]; rewrite list_lookup_fmap; [by rewrite Hi|by rewrite Hj, E]. }
    rewrite <- !strcmp_before, (strcmp_anti (fst y) (fst x)). destruct (Z.eq_dec (strcmp (fst x) (fst y)) 0) as [E|E]; [|lia].
    by apply strcmp_0 in E.
  - destruct (N.testbit (d_flags d) 11); [by discriminate Hs|congruence].
Qed.

Lemma list_own_texts a argv1 argv2 its1 its2 a1 a2 p1 p2 t i d f b k : parsed a argv1 its1 a1 -> parsed a argv2 its2 a2 ->
  shows a a1 p1 t i d f -> shows a a2 p2 t i d f -> array_handler f = Some (b, k) ->
  (N.testbit (d_flags d) 9 = true -> k = EText \/ k = EInt) -> texts t i its1 = texts t i its2 ->
  exists c, array_reads a1 p1 c /\ array_reads a2 p2 c.
Proof.
  intros P1 P2 S1 S2 Hk Hs E. pose proof S1 as (_ & _ & _ & _ & Hf).
  destruct (array_shown _ _ _ _ _ _ _ _ _ _ _ P1 S1 Hk) as (_ & c & _ & _ & _ & _ & F & R).
  destruct (array_shown _ _ _ _ _ _ _ _ _ _ _ P2 S2 Hk) as (_ & c' & _ & _ & _ & _ & F' & R').
  exists c. split; [done|]. rewrite <- E in F'. by rewrite (filled_fun d f b k _ Hf Hk Hs _ _ F F').
Qed.
Lemma map_own_texts a argv1 argv2 its1 its2 a1 a2 p1 p2 t i d f k : parsed a argv1 its1 a1 -> parsed a argv2 its2 a2 ->
  shows a a1 p1 t i d f -> shows a a2 p2 t i d f -> map_handler f = Some k ->
  (N.testbit (d_flags d) 11 = true -> N.testbit (d_flags d) 12 = true) -> texts t i its1 = texts t i its2 ->
  exists c, map_reads a1 p1 c /\ map_reads a2 p2 c.
Proof.
  intros P1 P2 S1 S2 Hk Hs E. pose proof S1 as (_ & _ & _ & _ & Hf).
  destruct (map_shown _ _ _ _ _ _ _ _ _ _ P1 S1 Hk) as (_ & c & n & _ & _ & _ & _ & F & R).
  destruct (map_shown _ _ _ _ _ _ _ _ _ _ P2 S2 Hk) as (_ & c' & n' & _ & _ & _ & _ & F' & R').
  exists c. split; [done|]. rewrite <- E in F'. by rewrite (mfilled_fun d f k _ Hf Hk Hs _ _ _ _ F F').
Qed.
End lists.
