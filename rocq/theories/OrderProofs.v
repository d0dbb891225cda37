(** * The comparison functions are consistent *)
From Coq Require Import Lia Floats.SpecFloat.
From Verif Require Import Api LibProofs SpecGrammar SpecAfter SpecMemory.

(** ** Texts *)
Lemma strcmp_before a : forall b, strcmp a b < 0 <-> text_before a b.
Proof.
  induction a as [|x a IH]; intros [|y b]; simpl; try (split; [lia|done]); try (split; [done|lia]).
  destruct (Z.ltb_spec (code x) (code y)); [split; [auto|lia]|].
  destruct (Z.ltb_spec (code y) (code x)).
  - split; [lia|]. intros [?|[-> _]]; lia.
  - assert (x = y) as -> by (apply code_inj; lia). rewrite IH. split; [auto|]. intros [?|[_ ?]]; [lia|done].
Qed.
Lemma strcmp_anti a : forall b, strcmp a b = - strcmp b a.
Proof.
  induction a as [|x a IH]; intros [|y b]; simpl; try done.
  destruct (Z.ltb_spec (code x) (code y)); destruct (Z.ltb_spec (code y) (code x)); try lia. apply IH.
Qed.
Lemma text_before_trans a : forall b c, text_before a b -> text_before b c -> text_before a c.
Proof.
  induction a as [|x a IH]; intros [|y b] [|z c]; simpl; try done.
  intros [H1|[-> H1]] [H2|[-> H2]]; [left; lia|by left|by left|right; split; [done|by eapply IH]].
Qed.
Lemma strcmp_le_trans a b c : strcmp a b <= 0 -> strcmp b c <= 0 -> strcmp a c <= 0.
Proof.
  intros H1 H2. destruct (Z.eq_dec (strcmp a b) 0) as [E1|N1]; [by apply strcmp_0 in E1 as ->|].
  destruct (Z.eq_dec (strcmp b c) 0) as [E2|N2]; [by apply strcmp_0 in E2 as ->|].
  assert (text_before a c); [|rewrite <- strcmp_before in *; lia].
  eapply text_before_trans; apply strcmp_before; [instantiate (1 := b); lia|lia].
Qed.

(** ** Doubles *)
Definition sf_key (f : spec_float) : Z * Z * Z :=
  match f with
  | S754_nan => (0, 0, 0)
  | S754_zero _ => (0, 0, 0)
  | S754_infinity s => (if s then -2 else 2, 0, 0)
  | S754_finite s m e => if s then (-1, - e, Zneg m) else (1, e, Zpos m)
  end.
Definition lex (a b : Z * Z * Z) : comparison :=
  match fst (fst a) ?= fst (fst b) with
  | Eq => match snd (fst a) ?= snd (fst b) with Eq => snd a ?= snd b | r => r end
  | r => r
  end.
Lemma lex_anti a b : lex a b = CompOpp (lex b a).
Proof.
  unfold lex. rewrite (Z.compare_antisym (fst (fst b))), (Z.compare_antisym (snd (fst b))), (Z.compare_antisym (snd b)).
  repeat (destruct (_ ?= _); simpl; try done).
Qed.
Lemma lex_trans a b c : lex a b <> Gt -> lex b c <> Gt -> lex a c <> Gt.
Proof.
  destruct a as [[a1 a2] a3], b as [[b1 b2] b3], c as [[c1 c2] c3]. unfold lex. simpl.
  destruct (Z.compare_spec a1 b1), (Z.compare_spec b1 c1), (Z.compare_spec a1 c1); try done; try lia; subst;
  destruct (Z.compare_spec a2 b2), (Z.compare_spec b2 c2), (Z.compare_spec a2 c2); try done; try lia; subst;
  destruct (Z.compare_spec a3 b3), (Z.compare_spec b3 c3), (Z.compare_spec a3 c3); try done; lia.
Qed.
Lemma SFcompare_lex f g : f <> S754_nan -> g <> S754_nan -> SFcompare f g = Some (lex (sf_key f) (sf_key g)).
Proof.
  intros Hf Hg. destruct f as [s1|s1| |s1 m1 e1], g as [s2|s2| |s2 m2 e2]; try done; try destruct s1; try destruct s2; try done.
  - unfold SFcompare, lex, sf_key. simpl. rewrite Z.compare_opp.
    f_equal. rewrite (Z.compare_antisym e1 e2). destruct (e1 ?= e2); simpl; try done.
Qed.
Lemma feq_nan z : feq z z = true -> float_of_bits z <> S754_nan.
Proof. unfold feq. intros E H. rewrite H in E. done. Qed.

Definition cmpZ (c : comparison) : Z := match c with Lt => -1 | Eq => 0 | Gt => 1 end.
Lemma cmp_float_lex a b : float_of_bits a <> S754_nan -> float_of_bits b <> S754_nan ->
  cmp_float a b = cmpZ (lex (sf_key (float_of_bits a)) (sf_key (float_of_bits b))).
Proof.
  intros Ha Hb. unfold cmp_float, flt. rewrite !SFcompare_lex by done.
  rewrite (lex_anti (sf_key (float_of_bits b))). by destruct (lex _ _).
Qed.

(** ** Elements *)
Definition ecmp (k : ekind) (e f : elem) : Z :=
  match k with
  | EText => strcmp (text_of e) (text_of f)
  | EInt | ELong => cmp_int (int_of e) (int_of f)
  | EFloat => cmp_float (bits_of e) (bits_of f)
  | EBool => bits_of e - bits_of f
  end.
Lemma ecmp_consistent k l : Forall (sortable k) l -> consistent (ecmp k) l.
Proof.
  intros HS. rewrite Forall_forall in HS. split.
  - intros a b Ha Hb. destruct k; simpl.
    + rewrite (strcmp_anti (text_of a)). lia.
    + unfold cmp_int. destruct (Z.ltb_spec (int_of a) (int_of b)), (Z.ltb_spec (int_of b) (int_of a)); lia.
    + unfold cmp_int. destruct (Z.ltb_spec (int_of a) (int_of b)), (Z.ltb_spec (int_of b) (int_of a)); lia.
    + pose proof (feq_nan _ (HS a Ha eq_refl)). pose proof (feq_nan _ (HS b Hb eq_refl)).
      rewrite !cmp_float_lex by done. rewrite (lex_anti (sf_key (float_of_bits (bits_of a)))). by destruct (lex _ _).
    + lia.
  - intros a b c Ha Hb Hc. destruct k; simpl.
    + apply strcmp_le_trans.
    + unfold cmp_int. destruct (Z.ltb_spec (int_of a) (int_of b)), (Z.ltb_spec (int_of b) (int_of a)),
        (Z.ltb_spec (int_of b) (int_of c)), (Z.ltb_spec (int_of c) (int_of b)), (Z.ltb_spec (int_of a) (int_of c)), (Z.ltb_spec (int_of c) (int_of a)); lia.
    + unfold cmp_int. destruct (Z.ltb_spec (int_of a) (int_of b)), (Z.ltb_spec (int_of b) (int_of a)),
        (Z.ltb_spec (int_of b) (int_of c)), (Z.ltb_spec (int_of c) (int_of b)), (Z.ltb_spec (int_of a) (int_of c)), (Z.ltb_spec (int_of c) (int_of a)); lia.
    + pose proof (feq_nan _ (HS a Ha eq_refl)). pose proof (feq_nan _ (HS b Hb eq_refl)). pose proof (feq_nan _ (HS c Hc eq_refl)).
      rewrite !cmp_float_lex by done. intros L1 L2.
      pose proof (lex_trans (sf_key (float_of_bits (bits_of a))) (sf_key (float_of_bits (bits_of b))) (sf_key (float_of_bits (bits_of c)))) as HT.
      destruct (lex (sf_key (float_of_bits (bits_of a))) (sf_key (float_of_bits (bits_of b)))); simpl in L1; try lia;
      destruct (lex (sf_key (float_of_bits (bits_of b))) (sf_key (float_of_bits (bits_of c)))); simpl in L2; try lia;
      destruct (lex (sf_key (float_of_bits (bits_of a))) (sf_key (float_of_bits (bits_of c)))); simpl; try lia; exfalso; by apply HT.
    + lia.
Qed.
Lemma ecmp_precedes k e f : ecmp k e f <= 0 -> ~ precedes k f e.
Proof.
  destruct k; simpl.
  - rewrite <- strcmp_before, (strcmp_anti (text_of f)). lia.
  - unfold cmp_int. destruct (Z.ltb_spec (int_of e) (int_of f)), (Z.ltb_spec (int_of f) (int_of e)); lia.
  - unfold cmp_int. destruct (Z.ltb_spec (int_of e) (int_of f)), (Z.ltb_spec (int_of f) (int_of e)); lia.
  - unfold cmp_float. intros H1 H2. rewrite H2 in H1. destruct (flt (bits_of e) (bits_of f)) eqn:E; [|lia].
    unfold flt in *. destruct (SFcompare (float_of_bits (bits_of f)) (float_of_bits (bits_of e))) as [[]|] eqn:Ef; try done.
    destruct (SFcompare (float_of_bits (bits_of e)) (float_of_bits (bits_of f))) as [[]|] eqn:Ee; try done.
    assert (float_of_bits (bits_of e) <> S754_nan) by (intros Hn; rewrite Hn in Ee; done).
    assert (float_of_bits (bits_of f) <> S754_nan) by (intros Hn; rewrite Hn in Ef; done).
    rewrite SFcompare_lex in Ee by done. rewrite SFcompare_lex in Ef by done.
    rewrite lex_anti in Ef. injection Ee as Ee. rewrite Ee in Ef. done.
  - lia.
Qed.
