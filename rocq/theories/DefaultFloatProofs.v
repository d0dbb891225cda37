(** * Defaults of floating-point options: proofs *)
From Coq Require Import Floats.SpecFloat.
From Verif Require Import Validate Api Macros LibProofs FrameProofs SpecGrammar GrammarProofs GrammarLemmas
  ActiveProofs SpecAfter AfterProofs EnvProofs CallProofs WholeProofs SpecValues ValueProofs AfterFacts
  LookupProofs MoreFacts SpecDefaultFloat.
From Coq Require Import ZArith Lia.
Open Scope Z_scope.

Lemma scaled_whole b n : 0 <= b -> whole_part b n -> n = scaled b / 2 ^ 1074.
Proof.
  unfold whole_part. assert (Hp : 0 < 2 ^ 1074) by (apply Z.pow_pos_nonneg; lia).
  revert Hp. generalize (2 ^ 1074) (scaled b). intros P s Hp _ [H1 H2].
  apply (Z.div_unique_pos s P n (s - n * P)); lia.
Qed.

Lemma trunc_whole b n : finite_positive b -> whole_part b n -> trunc_float b = n.
Proof.
  intros [H0 Hx] Hw. rewrite (scaled_whole b n H0 Hw). clear n Hw. unfold expo in Hx.
  assert (Hf : 0 <= b mod 2 ^ 52 < 2 ^ 52) by (apply Z.mod_pos_bound; done).
  assert (He : 0 <= b / 2 ^ 52) by (apply Z.div_pos; done).
  assert (Hb : b / 9223372036854775808 = 0).
  { apply Z.div_small. split; [done|]. pose proof (Z.div_mod b (2 ^ 52) ltac:(done)) as Hd.
    change (2 ^ 52) with 4503599627370496 in *. nia. }
  unfold trunc_float, float_of_bits, scaled, expo, frac. rewrite Hb.
  change 4503599627370496 with (2 ^ 52).
  rewrite (Z.mod_small (b / 2 ^ 52) 2048) by lia.
  revert Hx Hf He. generalize (b / 2 ^ 52) (b mod 2 ^ 52). intros e f Hx Hf He.
  change (0 <? 0) with false.
  destruct (Z.eqb_spec e 0) as [->|Hne].
  { destruct f as [|p|p]; [by rewrite Z.div_0_l|reflexivity|lia]. }
  destruct (Z.eqb_spec e 2047) as [->|_]; [lia|].
  rewrite (Z.add_comm f). destruct (2 ^ 52 + f) as [|p|p] eqn:Ep; [lia| |lia].
  destruct (Z.leb_spec 0 (e - 1075)) as [Hle|Hlt].
  - replace (e - 1) with ((e - 1075) + 1074) by lia. rewrite Z.pow_add_r by lia.
    rewrite Z.mul_assoc, Z.div_mul; [done|]. apply Z.pow_nonzero; lia.
  - replace 1074 with (- (e - 1075) + (e - 1)) by lia. rewrite Z.pow_add_r by lia.
    rewrite Z.div_mul_cancel_r; [done| |]; apply Z.pow_nonzero; lia.
Qed.

Lemma whole_not_bits b n : finite_positive b -> whole_part b n -> n < 2 ^ 64 -> n = b -> b = 0.
Proof.
  intros Hfp Hw Hn ->. pose proof (trunc_whole _ _ Hfp Hw) as Ht.
  pose proof (scaled_whole b b (proj1 Hfp) Hw) as Hs. clear Ht. destruct Hfp as [H0 Hx].
  destruct (Z.eq_dec b 0) as [->|Hb0]; [done|exfalso].
  unfold scaled in Hs. unfold expo, frac in *.
  assert (Hf : 0 <= b mod 2 ^ 52 < 2 ^ 52) by (apply Z.mod_pos_bound; done).
  assert (He : 0 <= b / 2 ^ 52) by (apply Z.div_pos; done).
  pose proof (Z.div_mod b (2 ^ 52) ltac:(done)) as Hd.
  revert Hx Hf He Hd Hs. generalize (b / 2 ^ 52) (b mod 2 ^ 52). intros e f Hx Hf He Hd Hs. clear Hw.
  assert (HP : 2 ^ 52 < 2 ^ 1074) by (apply Z.pow_lt_mono_r; lia).
  destruct (Z.eqb_spec e 0) as [->|Hne].
  { rewrite Z.div_small in Hs by lia. lia. }
  destruct (Z.le_gt_cases 1075 e) as [Hle|Hlt].
  - replace (e - 1) with ((e - 1075) + 1074) in Hs by lia. rewrite Z.pow_add_r in Hs by lia.
    rewrite Z.mul_assoc, Z.div_mul in Hs by (apply Z.pow_nonzero; lia).
    assert (Hk : e - 1075 < 12).
    { apply Z.nle_gt. intros Hk. assert (2 ^ 12 <= 2 ^ (e - 1075)) by (apply Z.pow_le_mono_r; lia).
      assert (2 ^ 64 = 2 ^ 52 * 2 ^ 12) by reflexivity. nia. }
    clear HP Hx. assert (Hk0 : 0 <= e - 1075) by lia. remember (e - 1075) as k eqn:Hek.
    assert (He' : e = k + 1075) by lia. subst e. clear Hek Hle.
    assert (k = 0 \/ k = 1 \/ k = 2 \/ k = 3 \/ k = 4 \/ k = 5 \/ k = 6 \/ k = 7 \/ k = 8 \/ k = 9 \/ k = 10 \/ k = 11)
      as Hc by lia.
    repeat destruct Hc as [->|Hc]; try subst k; cbn -[Z.mul Z.add] in *; lia.
  - assert (Hs' : b <= (2 ^ 52 + f) / 2 ^ (1075 - e)).
    { rewrite Hs. replace 1074 with ((1075 - e) + (e - 1)) by lia. rewrite Z.pow_add_r by lia.
      rewrite Z.div_mul_cancel_r; [done| |]; apply Z.pow_nonzero; lia. }
    destruct (Z.eq_dec e 1) as [->|H1].
    + change (1075 - 1) with 1074 in Hs'.
      assert (HP2 : 2 ^ 53 < 2 ^ 1074) by (apply Z.pow_lt_mono_r; lia).
      rewrite Z.div_small in Hs'; [lia|]. change (2 ^ 53) with (2 ^ 52 + 2 ^ 52) in HP2. lia.
    + assert ((2 ^ 52 + f) / 2 ^ (1075 - e) <= 2 ^ 52 + f).
      { apply Z.div_le_upper_bound; [apply Z.pow_pos_nonneg; lia|].
        assert (1 <= 2 ^ (1075 - e)) by (pose proof (Z.pow_pos_nonneg 2 (1075 - e)); lia). nia. }
      nia.
Qed.

Section libc.
Context `{Libc}.

Lemma float_default a argv a' its t i p base m1 b m2 n :
  fresh a -> argus_parse a argv = Ok (Returned 0, a') ->
  reads (decls a) (a_root a) 0 false argv its -> (forall x, x ∈ its -> ~ touches t i x) ->
  entry a t i (with_mods base (m1 ++ DEFAULT (DFloat b) :: m2)) -> Forall no_default m2 ->
  from_env (a_prefix a) (with_mods base (m1 ++ DEFAULT (DFloat b) :: m2)) = None ->
  find_option_by_active_path a' p = Ok (Some (t, i)) ->
  finite_positive b -> whole_part b n -> n < 2 ^ 64 ->
  exists x, argus_get a' p = Ok (x, set_err a' 0) /\ as_float x = Ok n /\ (n = b <-> b = 0).
Proof.
  intros Hf E Hr Hno Ho HF Hfe Hp Hfp Hw Hn. eapply not_supplied in Ho; try done.
  destruct (found_access _ _ _ _ _ Hp Ho) as (Hg & _ & _).
  destruct (default_value base m1 (DFloat b) m2 HF) as [Hv _].
  pose proof (trunc_whole _ _ Hfp Hw) as Ht.
  assert (H0 : 0 <= n).
  { rewrite (scaled_whole b n (proj1 Hfp) Hw). apply Z.div_pos; [|apply Z.pow_pos_nonneg; lia].
    unfold scaled. assert (0 <= frac b) by (apply Z.mod_pos_bound; done).
    destruct (_ =? 0); [done|]. apply Z.mul_nonneg_nonneg; [|apply Z.pow_nonneg]; lia. }
  eexists. split; [exact Hg|]. rewrite Hv. cbn [default_raw as_float]. rewrite Ht.
  rewrite Z.mod_small; [|split; [done|exact Hn]]. split; [done|]. split.
  - by apply whole_not_bits.
  - intros ->. rewrite <- Ht. reflexivity.
Qed.
End libc.
