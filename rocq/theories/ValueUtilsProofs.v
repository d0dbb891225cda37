(** * Proofs: ordering and printing single values *)
From Coq Require Import Lia Floats.SpecFloat.
From Verif Require Import ValueUtils LibProofs SpecGrammar SpecAfter SpecMemory SpecValueUtils OrderProofs.

Lemma float_order x y : feq x x = true -> feq y y = true ->
  let r := if feq x y then 0 else if flt y x then 1 else -1 in
  (r < 0 <-> flt x y = true) /\ (0 < r <-> flt y x = true).
Proof.
  intros Hx Hy. pose proof (feq_nan _ Hx) as Nx. pose proof (feq_nan _ Hy) as Ny.
  unfold feq, flt. rewrite !SFcompare_lex by done. rewrite (lex_anti (sf_key (float_of_bits y))).
  destruct (lex _ _); simpl; split; split; lia || done.
Qed.
Lemma same_raw_int a b x y : same_raw a b = true -> as_int a = Ok x -> as_int b = Ok y -> x = y.
Proof.
  destruct a as [[] z1|s1|l1|], b as [[] z2|s2|l2|]; simpl; try done.
  intros E%Z.eqb_eq. subst. congruence.
Qed.
Lemma same_raw_bool a b x y : same_raw a b = true -> as_bool a = Ok x -> as_bool b = Ok y -> x = y.
Proof. destruct a as [[] z1|s1|l1|], b as [[] z2|s2|l2|]; simpl; try done. intros E%Z.eqb_eq. subst. congruence. Qed.
Lemma same_raw_float a b x y : same_raw a b = true -> as_float a = Ok x -> as_float b = Ok y -> x = y.
Proof. destruct a as [[] z1|s1|l1|], b as [[] z2|s2|l2|]; simpl; try done. intros E%Z.eqb_eq. subst. congruence. Qed.
Lemma same_raw_text a b h s t : same_raw a b = true -> deref_str a h = Ok s -> deref_str b h = Ok t -> s = t.
Proof.
  destruct a as [[] z1|s1|l1|], b as [[] z2|s2|l2|]; simpl; try done.
  - intros E%Z.eqb_eq. subst. congruence.
  - intros E%Nat.eqb_eq. subst. congruence.
Qed.
Lemma bools x y : (Z.b2z x - Z.b2z y < 0 <-> x = false /\ y = true) /\ (0 < Z.b2z x - Z.b2z y <-> y = false /\ x = true).
Proof. destruct x, y; simpl; split; split; lia || (intros [? ?]; done) || (split; done). Qed.
Lemma cmp_value_order h ty a b x y : sees h ty a x -> sees h ty b y -> comparable x y ->
  exists r, cmp_value ty a b h = Ok r /\ (r < 0 <-> less x y) /\ (0 < r <-> less y x).
Proof.
  intros Ha Hb Hc. unfold cmp_value.
  destruct Ha as [v p Hv|v p Hv|v p Hv| |v p Hn Hv|v p Hv]; inversion Hb; subst; simpl in Hc; try done; cbn [less].
  - destruct (same_raw v b) eqn:E.
    + rewrite (same_raw_bool _ _ _ _ E Hv H). exists 0. split; [done|]. split; split; try lia; intros [-> ?]; done.
    + change (_ || _)%bool with true. cbn [rbind]. rewrite Hv, H. cbn [rbind]. eexists. split; [done|]. apply bools.
  - destruct (same_raw v b) eqn:E.
    + rewrite (same_raw_bool _ _ _ _ E Hv H). exists 0. split; [done|]. split; split; try lia; intros [-> ?]; done.
    + change (_ || _)%bool with true. cbn [rbind]. rewrite Hv, H. cbn [rbind]. eexists. split; [done|]. apply bools.
  - destruct (same_raw v b) eqn:E.
    + rewrite (same_raw_int _ _ _ _ E Hv H). exists 0. split; [done|]. split; split; lia.
    + change (_ || _)%bool with false. change (VT_INT =? VT_INT)%N with true. cbn match. rewrite Hv, H. cbn [rbind].
      unfold int_expr. change INT_MAX with 2147483647.
      rewrite (proj2 (Z.leb_le _ _)) by lia. rewrite (proj2 (Z.leb_le _ _)) by lia. simpl.
      eexists. split; [done|]. split; split; lia.
  - destruct (same_raw v b) eqn:E.
    + rewrite (same_raw_text _ _ _ _ _ E Hv H0). exists 0. split; [done|].
      rewrite <- strcmp_before. pose proof (strcmp_anti s s). split; split; lia.
    + change (_ || _)%bool with false. change (VT_STRING =? VT_INT)%N with false. change (VT_STRING =? VT_STRING)%N with true.
      cbn match. rewrite Hn. cbn [rbind]. rewrite H. cbn [rbind]. rewrite Hv. cbn [rbind]. rewrite H0. cbn [rbind].
      eexists. split; [done|]. rewrite <- !strcmp_before. rewrite (strcmp_anti s p). split; split; lia.
  - destruct (same_raw v b) eqn:E.
    + rewrite (same_raw_float _ _ _ _ E Hv H). exists 0. split; [done|]. rewrite (same_raw_float _ _ _ _ E Hv H) in *.
      pose proof (feq_nan _ (proj1 Hc)). unfold feq, flt in *. destruct Hc as [Hc _]. destruct (SFcompare _ _) as [[]|]; try done.
    + change (_ || _)%bool with false. change (VT_FLOAT =? VT_INT)%N with false. change (VT_FLOAT =? VT_STRING)%N with false.
      change (VT_FLOAT =? VT_FLOAT)%N with true. cbn match. rewrite Hv, H. cbn [rbind]. eexists. split; [done|].
      apply float_order; tauto.
Qed.
Lemma print_value_text `{Libc} h ty v x t : sees h ty v x -> written x = Some t -> print_value ty v h = Ok t.
Proof.
  intros Hs Ht. unfold print_value. destruct Hs; injection Ht as <- || discriminate.
  - change (_ || _)%bool with true. cbn match. rewrite H0. done.
  - change (_ || _)%bool with true. cbn match. rewrite H0. done.
  - change (_ || _)%bool with false. change (VT_INT =? VT_INT)%N with true. cbn match. rewrite H0. done.
  - change (_ || _)%bool with false. change (VT_STRING =? VT_INT)%N with false. change (VT_STRING =? VT_STRING)%N with true.
    cbn match. rewrite H0. cbn [rbind]. rewrite H1. done.
  - change (_ || _)%bool with false. change (VT_FLOAT =? VT_INT)%N with false. change (VT_FLOAT =? VT_STRING)%N with false.
    change (VT_FLOAT =? VT_FLOAT)%N with true. cbn match. rewrite H0. done.
Qed.
Lemma print_values_text `{Libc} h ty xs : forall vs pre rest ts count,
  Forall2 (sees h ty) vs xs -> Forall2 (fun x t => written x = Some t) xs ts -> count = (length pre + length vs)%nat ->
  print_values ty (pre ++ vs ++ rest) h count (length pre) (length vs) = Ok (joined ts).
Proof.
  induction xs as [|x xs IH]; intros vs pre rest ts count HS HW HC.
  { inversion HS; subst. inversion HW; subst. done. }
  inversion HS as [|v ? vs' ? Hv HS']; subst. inversion HW as [|? t ? ts' Ht HW']; subst.
  cbn [length print_values]. unfold cell. rewrite lookup_app_r by lia. rewrite Nat.sub_diag. cbn [lookup list_lookup app].
  cbn [rbind]. rewrite (print_value_text h ty v x t) by done. cbn [rbind].
  specialize (IH vs' (pre ++ [v]) rest ts' (length pre + S (length vs'))%nat HS' HW').
  rewrite app_length in IH. cbn [length] in IH. replace (length pre + 1)%nat with (S (length pre)) in IH by lia.
  rewrite <- app_assoc in IH. cbn [app] in IH. cbn [length app]. rewrite IH by lia. cbn [rbind].
  f_equal. destruct HW' as [|x' t' xs' ts'' Ht' HW'].
  - inversion HS'; subst. cbn [length]. rewrite (proj2 (Nat.ltb_ge _ _)) by lia. cbn [joined app]. by rewrite app_nil_r.
  - inversion HS'; subst. cbn [length]. rewrite (proj2 (Nat.ltb_lt _ _)) by lia. done.
Qed.
Lemma print_array_text `{Libc} h ty vs xs ts rest : Forall2 (sees h ty) vs xs -> Forall2 (fun x t => written x = Some t) xs ts ->
  print_value_array ty (vs ++ rest) h (length vs) = Ok ($"[" ++ joined ts ++ $"]").
Proof.
  intros HS HW. unfold print_value_array. pose proof (print_values_text h ty xs vs [] rest ts (length vs) HS HW eq_refl) as E.
  cbn [app length] in E. rewrite E. done.
Qed.
Lemma cmp_value_overflow h a b x y : as_int a = Ok x -> as_int b = Ok y -> x <> y ->
  (cmp_value VT_INT a b h = UB SignedOverflow <-> ~ -2147483648 <= x - y <= 2147483647).
Proof.
  intros Ha Hb Hn. unfold cmp_value. destruct (same_raw a b) eqn:E.
  { by rewrite (same_raw_int _ _ _ _ E Ha Hb) in Hn. }
  change (_ || _)%bool with false. change (VT_INT =? VT_INT)%N with true. cbn match. rewrite Ha, Hb. cbn [rbind].
  unfold int_expr. change INT_MAX with 2147483647.
  destruct (Z.leb_spec (-2147483648) (x - y)), (Z.leb_spec (x - y) 2147483647); simpl; split; try done; lia.
Qed.
Lemma choices_spec ty c l i : one_of ty c l -> choices_to_value ty c (length l) i = Ok (default VNull (l !! i)).
Proof.
  intros Hc. unfold choices_to_value. destruct (Nat.leb_spec (length l) i).
  { by rewrite lookup_ge_None_2. }
  destruct (lookup_lt_is_Some_2 l i) as [v Hv]; [done|]. rewrite Hv. destruct Hc; cbn [default id].
  - change (VT_INT =? VT_INT)%N with true. cbn match. rewrite list_lookup_fmap in Hv. unfold cell.
    destruct (l !! i); [|done]. by injection Hv as <-.
  - change (VT_STRING =? VT_INT)%N with false. change (VT_STRING =? VT_STRING)%N with true. cbn match. unfold cell. by rewrite Hv.
  - change (VT_FLOAT =? VT_INT)%N with false. change (VT_FLOAT =? VT_STRING)%N with false.
    change (VT_FLOAT =? VT_FLOAT)%N with true. cbn match. rewrite list_lookup_fmap in Hv. unfold cell.
    destruct (l !! i); [|done]. by injection Hv as <-.
Qed.
