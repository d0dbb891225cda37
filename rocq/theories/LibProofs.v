(** * Facts about the C library model *)
From Verif Require Import Api.
From Coq Require Import Lia.

Lemma code_inj a b : code a = code b -> a = b.
Proof.
  unfold code. intros E. apply N2Z.inj in E.
  rewrite <- (ascii_N_embedding a), <- (ascii_N_embedding b). congruence.
Qed.

Lemma code_range a : 0 <= code a < 256.
Proof.
  unfold code. split; [lia|].
  pose proof (N_ascii_bounded a). lia.
Qed.

Lemma strcmp_refl a : strcmp a a = 0.
Proof. induction a as [|c a IH]; simpl; [done|]. rewrite Z.ltb_irrefl. done. Qed.

Lemma strcmp_0 a b : strcmp a b = 0 -> a = b.
Proof.
  revert b. induction a as [|x a IH]; intros [|y b]; simpl; try done.
  destruct (code x <? code y) eqn:E1; [done|].
  destruct (code y <? code x) eqn:E2; [done|].
  intros. f_equal; [apply code_inj; lia|auto].
Qed.

Lemma strcmp_eqb a b : (strcmp a b =? 0) = bool_decide (a = b).
Proof.
  case_bool_decide; subst.
  - rewrite strcmp_refl. done.
  - destruct (strcmp a b =? 0) eqn:E; [|done].
    apply Z.eqb_eq, strcmp_0 in E. done.
Qed.

Lemma strncmp_app a b : (strncmp a b (length b) =? 0) = true <-> exists c, a = b ++ c.
Proof.
  revert a. induction b as [|y b IH]; intros a; simpl.
  - split; [intros _; exists a; done|intros; reflexivity].
  - destruct a as [|x a].
    + split; [done|intros [c H]; done].
    + destruct (code x <? code y) eqn:E1.
      { split; [done|]. intros [c H]. injection H as -> ->. lia. }
      destruct (code y <? code x) eqn:E2.
      { split; [done|]. intros [c H]. injection H as -> ->. lia. }
      rewrite IH. split.
      * intros [c ->]. exists c. simpl. f_equal. apply code_inj; lia.
      * intros [c H]. injection H as -> ->. eauto.
Qed.

Lemma strncmp_take a b n :
  (n <= length a)%nat ->
  (strncmp a b n =? 0) = true <-> take n a = take n b.
Proof.
  revert a b. induction n as [|n IH]; intros a b Hn; simpl; [done|].
  destruct a as [|x a]; simpl in *; [lia|].
  destruct b as [|y b].
  - split; done.
  - destruct (code x <? code y) eqn:E1.
    { split; [done|]. intros H. injection H as -> H. lia. }
    destruct (code y <? code x) eqn:E2.
    { split; [done|]. intros H. injection H as -> H. lia. }
    rewrite IH by lia. split.
    + intros H. cbn. rewrite H. f_equal. apply code_inj; lia.
    + intros H. injection H as -> H. done.
Qed.

Lemma starts_with_Some p s r : starts_with (Some p) (Some s) = Some r <-> s = p ++ r.
Proof.
  unfold starts_with. destruct (strncmp s p (length p) =? 0) eqn:E.
  - apply strncmp_app in E. destruct E as [c ->].
    rewrite drop_app. split; [intros [= ->]; done|].
    intros H. apply app_inv_head in H. congruence.
  - split; [done|]. intros ->.
    assert (strncmp (p ++ r) p (length p) =? 0 = true) as H by (apply strncmp_app; eauto).
    congruence.
Qed.

Lemma starts_with_None p s : starts_with (Some p) (Some s) = None <-> forall r, s <> p ++ r.
Proof.
  destruct (starts_with (Some p) (Some s)) as [r|] eqn:E.
  - apply starts_with_Some in E. split; [done|]. intros H. destruct (H r). done.
  - split; [|done]. intros _ r ->.
    assert (starts_with (Some p) (Some (p ++ r)) = Some r) by (apply starts_with_Some; done).
    congruence.
Qed.

Lemma strchr_Some s c n :
  strchr s c = Some n <-> exists u v, s = u ++ c :: v /\ length u = n /\ c ∉ u.
Proof.
  revert n. induction s as [|x s IH]; intros n; simpl.
  - split; [done|]. intros (u & v & H & _). destruct u; done.
  - destruct (Ascii.eqb_spec x c) as [->|Hx].
    + split.
      * intros [= <-]. exists [], s. split_and!; [done..|apply not_elem_of_nil].
      * intros (u & v & H & <- & Hu). destruct u as [|y u]; [done|].
        injection H as -> ->. destruct Hu. apply elem_of_cons. auto.
    + destruct (strchr s c) as [m|] eqn:E.
      * split.
        -- intros [= <-]. destruct (proj1 (IH m) eq_refl) as (u & v & -> & <- & Hu).
           exists (x :: u), v. split_and!; [done..|].
           rewrite elem_of_cons. naive_solver.
        -- intros (u & v & H & <- & Hu). destruct u as [|y u]; [naive_solver|].
           injection H as -> ->. simpl. rewrite elem_of_cons in Hu.
           assert (Some m = Some (length u)) as [= ->]; [|done].
           apply IH. exists u, v. naive_solver.
      * split; [done|].
        intros (u & v & H & <- & Hu). destruct u as [|y u]; [naive_solver|].
        injection H as -> ->. rewrite elem_of_cons in Hu.
        assert (None = Some (length u)); [|done].
        apply IH. exists u, v. naive_solver.
Qed.

Lemma strchr_None s c : strchr s c = None <-> c ∉ s.
Proof.
  induction s as [|x s IH]; simpl.
  - split; [|done]. intros _. apply not_elem_of_nil.
  - rewrite elem_of_cons. destruct (Ascii.eqb_spec x c) as [->|Hx].
    + split; [done|]. naive_solver.
    + destruct (strchr s c) as [m|].
      * split; [done|]. intros H. destruct IH as [_ IH]. exfalso.
        assert (c ∉ s) as Hs by naive_solver. apply IH in Hs. done.
      * split; [|done]. naive_solver.
Qed.

Lemma find_index_Some {A} (p : A -> bool) l i :
  find_index p l = Some i <->
  exists x, l !! i = Some x /\ p x = true /\
    forall j y, (j < i)%nat -> l !! j = Some y -> p y = false.
Proof.
  revert i. induction l as [|x l IH]; intros i; simpl.
  - split; [done|]. intros (y & H & _). destruct i; done.
  - destruct (p x) eqn:E.
    + split.
      * intros [= <-]. exists x. split_and!; [done..|]. intros; lia.
      * intros (y & H & Hp & Hj). destruct i as [|i]; [done|].
        specialize (Hj O x ltac:(lia) eq_refl). congruence.
    + destruct (find_index p l) as [n|] eqn:En.
      * split.
        -- intros [= <-]. destruct (proj1 (IH n) eq_refl) as (y & ? & ? & Hj).
           exists y. split_and!; [done..|]. intros [|j] z Hlt Hz; simpl in *; [congruence|].
           apply (Hj j); [lia|done].
        -- intros (y & H & Hp & Hj). destruct i as [|i]; simpl in *; [congruence|].
           assert (Some n = Some i) as [= ->]; [|done]. apply IH. exists y.
           split_and!; [done..|]. intros j z Hlt Hz. apply (Hj (S j)); [lia|done].
      * split; [done|]. intros (y & H & Hp & Hj). destruct i as [|i]; simpl in *; [congruence|].
        assert (None = Some i); [|done]. apply IH. exists y.
        split_and!; [done..|]. intros j z Hlt Hz. apply (Hj (S j)); [lia|done].
Qed.

Lemma find_index_None {A} (p : A -> bool) l :
  find_index p l = None <-> forall j y, l !! j = Some y -> p y = false.
Proof.
  induction l as [|x l IH]; simpl.
  - split; [|done]. intros _ j y H. destruct j; done.
  - destruct (p x) eqn:E.
    + split; [done|]. intros H. specialize (H O x eq_refl). congruence.
    + destruct (find_index p l) as [n|].
      * split; [done|]. intros H.
        assert (Some n = None); [|done]. apply IH. intros j y Hj. apply (H (S j)). done.
      * split; [|done]. intros _ [|j] y Hj; simpl in *; [congruence|].
        apply (proj1 IH eq_refl j). done.
Qed.

Lemma find_index_ext {A B} (p : A -> bool) (q : B -> bool) (f : A -> B) l :
  (forall x, p x = q (f x)) -> find_index p l = find_index q (map f l).
Proof.
  intros H. induction l as [|x l IH]; simpl; [done|]. rewrite H, IH. done.
Qed.
