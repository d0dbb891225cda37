(** * Integer ranges: proofs *)
From Coq Require Import Lia.
From Verif Require Import Api LibProofs SpecGrammar SpecAfter SpecStructure SpecValues ValueProofs SpecMemory SpecContents SpecSafe
  SpecCollections SplitProofs CollProofs.

Lemma written_digits s ds : written s ds -> Forall (fun c => isdigit c = true) s.
Proof. induction 1 as [|c d s ds Hc _ IH]; constructor; [by eapply digit_char|done]. Qed.
(** Within digits no separator is found. *)
Lemma search_digits s rest : Forall (fun c => isdigit c = true) s -> forall p k,
  search_range_separator p (s ++ rest) k =
  search_range_separator (match last s with Some c => Some c | None => p end) rest (k + length s).
Proof.
  induction 1 as [|c s Hc Hs IH]; intros p k; [by rewrite Nat.add_0_r|].
  cbn [app search_range_separator].
  assert ((Ascii.eqb c "-" || Ascii.eqb c ":")%char = false) as ->.
  { destruct (Ascii.eqb_spec c "-"%char) as [->|]; [by vm_compute in Hc|].
    destruct (Ascii.eqb_spec c ":"%char) as [->|]; [by vm_compute in Hc|done]. }
  cbn [andb]. rewrite IH. rewrite last_cons. cbn [length]. rewrite Nat.add_succ_r. destruct (last s); done.
Qed.
Lemma last_digit s : s <> [] -> Forall (fun c => isdigit c = true) s -> exists c, last s = Some c /\ isdigit c = true.
Proof.
  intros Hne Hs. destruct (last s) as [c|] eqn:E; [|by apply last_None in E].
  exists c. split; [done|]. apply last_Some_elem_of in E. rewrite Forall_forall in Hs. by apply Hs.
Qed.
Lemma search_number n : forall rest k, exists c, isdigit c = true /\
  search_range_separator None (decimal_text n ++ rest) k = search_range_separator (Some c) rest (k + length (decimal_text n)).
Proof.
  intros rest k. destruct (decimal_written n) as (neg & s & ds & Hw & Hne & -> & _).
  apply written_digits in Hw. destruct (last_digit s Hne Hw) as (c & Hl & Hc). exists c. split; [done|].
  destruct neg.
  - rewrite <- app_assoc. change ($"-" ++ s ++ rest) with ("-"%char :: s ++ rest).
    cbn [search_range_separator]. rewrite !andb_false_r. cbn [andb].
    rewrite search_digits by done. rewrite Hl. rewrite app_length. cbn [length]. f_equal. cbn. lia.
  - cbn [app]. rewrite search_digits by done. by rewrite Hl.
Qed.
Lemma number_start n : exists c rest, decimal_text n = c :: rest /\ (isdigit c || Ascii.eqb c "-") = true.
Proof.
  destruct (decimal_written n) as (neg & s & ds & Hw & Hne & -> & _). apply written_digits in Hw.
  destruct neg; [by exists "-"%char, s|]. destruct s as [|c s]; [done|]. exists c, s. split; [done|].
  inversion Hw; subst. apply orb_true_iff. by left.
Qed.
Lemma to_int32_id n : in_32_bits n -> to_int32 (n mod two32) = n.
Proof.
  intros Hn. unfold in_32_bits in Hn. unfold to_int32, two32. change (2 ^ 31) with 2147483648 in *.
  rewrite Z.mod_mod by lia. destruct (decide (0 <= n)).
  - rewrite Z.mod_small by lia. destruct (Z.ltb_spec n 2147483648); lia.
  - rewrite <- (Z_mod_plus_full n 1). rewrite Z.mod_small by lia.
    destruct (Z.ltb_spec (n + 1 * 4294967296) 2147483648); lia.
Qed.
Lemma to_int32_id' n : in_32_bits n -> to_int32 n = n.
Proof. intros Hn. rewrite <- (to_int32_id n Hn) at 2. unfold to_int32. by rewrite Z.mod_mod by (unfold two32; lia). Qed.
Lemma saturated_32 n : in_32_bits n -> saturated n = n.
Proof. intros Hn. apply saturated_id. unfold in_32_bits in Hn. change (2 ^ 31) with 2147483648 in *. change (2 ^ 63) with 9223372036854775808. lia. Qed.
Lemma int_part_range w ns : int_part w ns -> exists a b, in_32_bits a /\ in_32_bits b /\ a <= b /\
  parse_int_range w = Some (a, b) /\ ns = from_to a b.
Proof.
  intros Hp. inversion Hp as [n Hn E1 E2|a b c Ha Hb Hc E1 E2]; subst.
  - exists n, n. split_and!; [done|done|lia| |].
    + unfold parse_int_range. destruct (search_number n [] 0) as (c & Hc & E). rewrite app_nil_r in E. rewrite E. cbn [search_range_separator].
      pose proof (strtoll_decimal n [] I) as E1. rewrite app_nil_r in E1. rewrite E1.
      by rewrite (saturated_32 n Hn), (to_int32_id' n Hn).
    + unfold from_to. rewrite Z.sub_diag. change (Z.to_nat (0 + 1)) with 1%nat. cbn [seq map]. f_equal. lia.
  - exists (Z.min a b), (Z.max a b). split_and!; [by destruct (Z.min_spec a b) as [[_ ->]|[_ ->]]|by destruct (Z.max_spec a b) as [[_ ->]|[_ ->]]|lia| |done].
    unfold parse_int_range. destruct (search_number a (c :: decimal_text b) 0) as (c' & Hc' & E). rewrite E.
    destruct (number_start b) as (c0 & r & Eb & H0). cbn [search_range_separator]. rewrite Eb at 1. rewrite H0, Hc'.
    assert ((Ascii.eqb c "-" || Ascii.eqb c ":")%char = true) as -> by (by destruct Hc as [->| ->]).
    cbn [andb]. rewrite strtoll_decimal by (destruct Hc as [->| ->]; done).
    assert (drop (S (0 + length (decimal_text a))) (decimal_text a ++ c :: decimal_text b) = decimal_text b) as ->.
    { rewrite <- (Nat.add_1_r (0 + length _)). cbn [Nat.add]. rewrite drop_add_app by done. done. }
    pose proof (strtoll_decimal b [] I) as E1. rewrite app_nil_r in E1. rewrite E1. cbn [fst].
    by rewrite !saturated_32, !to_int32_id' by done.
Qed.
(** The elements of one part. *)
Lemma piece_part `{Libc} w ns : int_part w ns -> piece HArrayInt w = Some (map (fun n => Num W4 (n mod two32)) ns).
Proof.
  intros Hp. apply int_part_range in Hp as (a & b & Ha & Hb & Hab & E & ->). unfold piece. rewrite E. f_equal.
  unfold int_elems, from_to. by rewrite map_map.
Qed.
Lemma part_32 w ns : int_part w ns -> Forall in_32_bits ns.
Proof.
  intros Hp. apply int_part_range in Hp as (a & b & Ha & Hb & Hab & E & ->). apply Forall_forall. intros x Hx.
  apply elem_of_list_In, in_map_iff in Hx as (j & <- & Hj%in_seq). unfold in_32_bits in *. lia.
Qed.
Lemma yields_ints `{Libc} v ns : int_texts v ns -> yields HArrayInt v (map (fun n => Num W4 (n mod two32)) ns) /\ Forall in_32_bits ns.
Proof.
  intros (ws & nss & He & Hp & ->). split.
  - exists ws, (map (map (fun n => Num W4 (n mod two32))) nss). split_and!; [done| |by rewrite concat_map].
    clear He. induction Hp as [|w ns ws nss Hw Hp IH]; constructor; [by apply piece_part|done].
  - clear He. induction Hp as [|w ns ws nss Hw Hp IH]; cbn [concat]; [constructor|]. apply Forall_app. split; [by eapply part_32|done].
Qed.
Lemma yields_fun `{Libc} f v es1 es2 : yields f v es1 -> yields f v es2 -> es1 = es2.
Proof.
  intros (ws1 & ess1 & H1 & P1 & ->) (ws2 & ess2 & H2 & P2 & ->).
  assert (ws1 = ws2) as <-.
  { unfold pieces in *. destruct (array_handler f) as [[[] ?]|]; [|congruence|congruence].
    unfold elements in *. case_bool_decide; [by eapply cut_fun|congruence]. }
  f_equal. clear H1 H2. revert ess2 P2. induction P1 as [|w e ws es Hw Hf IH]; intros ess2 P2; inversion P2; subst; [done|].
  f_equal; [congruence|by apply IH].
Qed.
Section ranges.
Context `{Libc}.
Lemma ranges_read a argv its a' p t i d nss : parsed a argv its a' -> shows a a' p t i d HArrayInt ->
  N.testbit (d_flags d) 9 = false -> N.testbit (d_flags d) 10 = false ->
  Forall2 int_texts (texts t i its) nss -> ints_read a' p (concat nss).
Proof.
  intros Hp Hs H9 H10 Hn. destruct (array_shown a argv its a' p t i d HArrayInt true EInt Hp Hs eq_refl) as (o & c & fp & _ & _ & _ & Hf & Hr).
  destruct Hs as (_ & o0 & _ & _ & Hh).
  destruct (filled_spec d HArrayInt true EInt _ Hh eq_refl c Hf) as (ess & Hy & Hc & _). rewrite (Hc H9 H10) in Hr.
  assert (ess = map (map (fun n => Num W4 (n mod two32))) nss /\ Forall (Forall in_32_bits) nss) as [-> H32].
  { clear -Hy Hn. revert nss Hn. induction Hy as [|v es vs ess Hv _ IH]; intros nss Hn; inversion Hn as [|? ns ? nss' Hn1 Hn2]; subst; [done|].
    destruct (yields_ints v ns Hn1) as [Hy1 H1]. destruct (IH nss' Hn2) as [-> H2]. split; [|by constructor].
    cbn [map]. f_equal. by eapply yields_fun. }
  rewrite <- concat_map in Hr. destruct Hr as (Hcount & Hget & _). rewrite map_length in Hcount. split; [done|].
  intros j n Hj. destruct (Hget j (Num W4 (n mod two32))) as (x & Hx & Hh1); [by rewrite list_lookup_fmap, Hj|].
  exists x. split; [done|]. cbn in Hh1. subst x. unfold as_int. f_equal. apply to_int32_id.
  assert (Forall in_32_bits (concat nss)) as HF.
  { clear -H32. induction H32; cbn [concat]; [constructor|]. apply Forall_app. done. }
  rewrite Forall_forall in HF. apply HF. by eapply elem_of_list_lookup_2.
Qed.
End ranges.
