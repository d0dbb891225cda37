(** * The texts of a pattern without context: tools for the proofs about the predefined patterns *)
From stdpp Require Import list.
From Verif Require Import RegexRun RegexProofs SpecPatterns.

Fixpoint ltimes (L : cstr -> Prop) (k : nat) (w : cstr) : Prop :=
  match k with
  | O => w = []
  | S k => exists u v, w = u ++ v /\ L u /\ ltimes L k v
  end.
Definition within (lo : nat) (hi : option nat) (k : nat) : Prop :=
  (lo <= k)%nat /\ match hi with Some h => (k <= h)%nat | None => True end.
Fixpoint lang (r : re) (w : cstr) : Prop :=
  match r with
  | REmpty => w = []
  | RSet k => exists c, w = [c] /\ in_set k c = true
  | RSeq a b => exists u v, w = u ++ v /\ lang a u /\ lang b v
  | RAlt a b => lang a w \/ lang b w
  | RRep lo hi a => exists k, within lo hi k /\ ltimes (lang a) k w
  | _ => False
  end.
Fixpoint plain (r : re) : bool :=
  match r with
  | REmpty | RSet _ => true
  | RSeq a b | RAlt a b => plain a && plain b
  | RRep _ _ a => plain a
  | _ => false
  end.
Lemma times_ltimes M L k : (forall pre w post, M pre w post <-> L w) -> forall pre w post, times M k pre w post <-> ltimes L k w.
Proof.
  intros H. induction k as [|k IH]; intros pre w post; cbn; [auto|].
  split; intros (u & v & E & H1 & H2); exists u, v; (split; [auto|]).
  - apply H in H1. apply IH in H2. auto.
  - split; [apply H; auto|apply IH; auto].
Qed.
Lemma plain_lang r : plain r = true -> forall pre w post, matches r pre w post <-> lang r w.
Proof.
  induction r as [|k|a IHa b IHb|a IHa b IHb|lo hi a IHa| | |positive a IHa|positive k]; cbn [plain]; intros Hp pre w post;
    try discriminate; cbn [matches lang]; auto.
  - apply andb_true_iff in Hp as [Ha Hb].
    split; intros (u & v & E & H1 & H2); exists u, v; (split; [auto|]).
    + apply IHa in H1; [|auto]. apply IHb in H2; auto.
    + split; [apply IHa; auto|apply IHb; auto].
  - apply andb_true_iff in Hp as [Ha Hb]. rewrite IHa, IHb; auto.
  - unfold within. split; intros (k & H).
    + destruct H as (H1 & H2 & H3). exists k. split; [split; [auto|destruct hi; auto]|]. eapply times_ltimes in H3; eauto.
    + destruct H as ((H1 & H2) & H3). exists k. split; [auto|]. split; [intros h ->; auto|]. eapply times_ltimes; eauto.
Qed.

(** A right nested sequence ending with [$]. *)
Fixpoint strip (r : re) : option re :=
  match r with
  | RSeq REnd REmpty => Some REmpty
  | RSeq a b =>
      if plain a then match strip b with Some b' => Some (RSeq a b') | None => None end else None
  | _ => None
  end.
Definition at_end (post : cstr) : Prop := post = [] \/ post = [newline].
Lemma strip_ok r : forall r', strip r = Some r' -> forall pre w post, matches r pre w post <-> lang r' w /\ at_end post.
Proof.
  induction r as [|k|a IHa b IHb|a IHa b IHb|lo hi a IHa| | |positive a IHa|positive k]; intros r'; try discriminate.
  assert (Hg : (if plain a then match strip b with Some b' => Some (RSeq a b') | None => None end else None) = Some r' ->
    forall pre w post, matches (RSeq a b) pre w post <-> lang r' w /\ at_end post).
  { destruct (plain a) eqn:Hp; [|discriminate]. destruct (strip b) as [b'|] eqn:Eb; [|discriminate]. intros [= <-] pre w post.
    cbn [matches lang]. split.
    - intros (u & v & E & H1 & H2). apply (IHb _ eq_refl) in H2 as [H2 H3]. split; [|auto]. exists u, v.
      apply plain_lang in H1; auto.
    - intros [(u & v & E & H1 & H2) H3]. exists u, v. split; [auto|]. split; [apply plain_lang; auto|]. apply (IHb _ eq_refl). auto. }
  destruct a; try exact Hg. destruct b; try exact Hg. intros [= <-] pre w post. cbn [matches lang]. unfold at_end. split.
  - intros (u & v & -> & [-> H] & ->). auto.
  - intros [-> H]. exists [], []. auto.
Qed.
Lemma found_start r s : found (RSeq RStart r) s <-> exists w post, s = w ++ post /\ matches r [] w post.
Proof.
  unfold found. cbn [matches]. split.
  - intros (pre & w & post & -> & u & v & -> & [-> ->] & H). exists v, post. auto.
  - intros (w & post & -> & H). exists [], w, post. split; [auto|]. exists [], w. auto.
Qed.
Lemma line_iff P Q : (forall t, P t <-> Q t) -> forall s, line P s <-> line Q s.
Proof. intros H s. unfold line. split; (intros [H1|(t & -> & H1)]; [left; apply H; auto|right; exists t; split; [auto|apply H; auto]]). Qed.
Lemma line_at_end P s : (exists w post, s = w ++ post /\ P w /\ at_end post) <-> line P s.
Proof.
  unfold line, at_end. split.
  - intros (w & post & -> & H & [->| ->]); [rewrite app_nil_r; auto|eauto].
  - intros [H|(t & -> & H)]; [exists s, []; rewrite app_nil_r; auto|exists t, [newline]; auto].
Qed.
Lemma satisfies_found p r s : compile p = Some r -> satisfies p s <-> found r s.
Proof. intros E. unfold satisfies. split; [intros (r' & E' & H); congruence|eauto]. Qed.
Lemma satisfies_lang p X Y s : compile p = Some (RSeq RStart X) -> strip X = Some Y -> satisfies p s <-> line (lang Y) s.
Proof.
  intros E HY. rewrite (satisfies_found _ _ _ E), found_start, <- line_at_end.
  split; intros (w & post & -> & H); exists w, post; (split; [auto|]).
  - apply (strip_ok _ _ HY) in H. auto.
  - apply (strip_ok _ _ HY). auto.
Qed.
(** Reduces the claim about a pattern to one about its language. *)
Ltac pattern_lang p :=
  match eval vm_compute in (compile p) with
  | Some (RSeq RStart ?X) =>
      match eval vm_compute in (strip X) with
      | Some ?Y =>
          rewrite (satisfies_lang p X Y) by (vm_compute; reflexivity); apply line_iff; intros ?t
      end
  end.

(** ** Sets of characters *)
Definition chars (k : cset) (t : cstr) : Prop := Forall (fun c => in_set k c = true) t.
Definition same_set (k : cset) (set : cstr) : bool :=
  forallb (fun n => Bool.eqb (in_set k (ascii_of_nat n)) (bool_decide (ascii_of_nat n ∈ set))) (seq 0 256).
Lemma same_set_ok k set : same_set k set = true -> forall c, in_set k c = true <-> c ∈ set.
Proof.
  intros H c. unfold same_set in H. rewrite forallb_forall in H.
  assert (Hc : In (nat_of_ascii c) (seq 0 256)) by (apply in_seq; pose proof (nat_ascii_bounded c); lia).
  specialize (H _ Hc). apply eqb_prop in H. rewrite ascii_nat_embedding in H. rewrite H. apply bool_decide_eq_true.
Qed.
Definition diff_set (k : cset) (set : cstr) : bool :=
  forallb (fun n => Bool.eqb (in_set k (ascii_of_nat n)) (negb (bool_decide (ascii_of_nat n ∈ set)))) (seq 0 256).
Lemma diff_set_ok k set : diff_set k set = true -> forall c, in_set k c = true <-> c ∉ set.
Proof.
  intros H c. unfold diff_set in H. rewrite forallb_forall in H.
  assert (Hc : In (nat_of_ascii c) (seq 0 256)) by (apply in_seq; pose proof (nat_ascii_bounded c); lia).
  specialize (H _ Hc). apply eqb_prop in H. rewrite ascii_nat_embedding in H. rewrite H, negb_true_iff. apply bool_decide_eq_false.
Qed.
Lemma made_chars k set t : same_set k set = true -> chars k t <-> made_of set t.
Proof. intros H. unfold chars, made_of. split; intros Ht; (eapply Forall_impl; [exact Ht|]); intros c; apply (same_set_ok _ _ H). Qed.
Lemma free_chars k set t : diff_set k set = true -> chars k t <-> free_of set t.
Proof. intros H. unfold chars, free_of. split; intros Ht; (eapply Forall_impl; [exact Ht|]); intros c; apply (diff_set_ok _ _ H). Qed.
Lemma in_one c d : in_set (single c) d = true <-> d = c.
Proof.
  unfold in_set, single, in_range. cbn [negated ranges existsb fst snd]. rewrite xorb_false_l, orb_false_r, andb_true_iff, !Z.leb_le. split; [|intros ->; lia].
  intros H. assert (Hc : code d = code c) by lia. unfold code in Hc.
  rewrite <- (ascii_N_embedding d), <- (ascii_N_embedding c). f_equal. lia.
Qed.

(** ** Shapes *)
Lemma lang_empty_r a w : lang (RSeq a REmpty) w <-> lang a w.
Proof.
  cbn. split.
  - intros (u & v & -> & H & ->). rewrite app_nil_r. auto.
  - intros H. exists w, []. rewrite app_nil_r. auto.
Qed.
Lemma lang_char k b w : lang (RSeq (RSet k) b) w <-> exists c v, w = c :: v /\ in_set k c = true /\ lang b v.
Proof.
  cbn. split.
  - intros (u & v & -> & (c & -> & H) & Hb). exists c, v. auto.
  - intros (c & v & -> & H & Hb). exists [c], v. eauto.
Qed.
Lemma ltimes_chars k n w : ltimes (lang (RSet k)) n w <-> length w = n /\ chars k w.
Proof.
  revert w. induction n as [|n IH]; intros w; cbn [ltimes].
  - split; [intros ->; split; [auto|apply Forall_nil; auto]|]. intros [H _]. destruct w; [auto|discriminate].
  - split.
    + intros (u & v & -> & (c & -> & Hc) & H). apply IH in H as [<- H]. split; [auto|]. apply Forall_cons. auto.
    + intros [Hl H]. destruct w as [|c w]; [discriminate|]. apply Forall_cons in H as [Hc H]. injection Hl as Hl.
      exists [c], w. split; [auto|]. split; [cbn; eauto|]. apply IH. auto.
Qed.
Lemma lang_chars lo hi k w : lang (RRep lo hi (RSet k)) w <-> chars k w /\ within lo hi (length w).
Proof.
  cbn [lang]. split.
  - intros (n & Hn & H). apply (ltimes_chars k n w) in H as [<- H]. auto.
  - intros [H Hn]. exists (length w). split; [auto|]. apply (ltimes_chars k). auto.
Qed.
Lemma lang_seq a b w : lang (RSeq a b) w <-> exists u v, w = u ++ v /\ lang a u /\ lang b v.
Proof. reflexivity. Qed.
Lemma lang_alt a b w : lang (RAlt a b) w <-> lang a w \/ lang b w.
Proof. reflexivity. Qed.
Lemma lang_rep lo hi a w : lang (RRep lo hi a) w <-> exists k, within lo hi k /\ ltimes (lang a) k w.
Proof. reflexivity. Qed.
Lemma lang_option a w : lang (RRep 0 (Some 1%nat) a) w <-> w = [] \/ lang a w.
Proof.
  cbn [lang]. split.
  - intros ([|[|k]] & Hk & H).
    + auto.
    + cbn in H. destruct H as (u & v & -> & H & ->). rewrite app_nil_r. auto.
    + destruct Hk. lia.
  - intros [->|H].
    + exists O. split; [split; lia|]. reflexivity.
    + exists 1%nat. split; [split; lia|]. cbn. exists w, []. rewrite app_nil_r. auto.
Qed.
(** [k] texts one after the other *)
Lemma ltimes_concat L k w : ltimes L k w <-> exists l, length l = k /\ Forall L l /\ w = concat l.
Proof.
  revert w. induction k as [|k IH]; intros w; cbn [ltimes].
  - split; [intros ->; exists []; auto|]. intros (l & Hl & _ & ->). destruct l; [auto|discriminate].
  - split.
    + intros (u & v & -> & Hu & H). apply IH in H as (l & <- & Hl & ->). exists (u :: l). auto.
    + intros ([|u l] & Hl & H & ->); [discriminate|]. apply Forall_cons in H as [Hu H]. injection Hl as Hl.
      exists u, (concat l). split; [auto|]. split; [auto|]. apply IH. eauto.
Qed.
