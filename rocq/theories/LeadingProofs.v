(** * Proofs about texts that are not numbers and numbers wider than an int *)
From Coq Require Import Lia.
From Verif Require Export SpecLeading ValueProofs AfterFacts LookupProofs MoreFacts CheckFacts.

Lemma blank_space c : isspace c = true <-> c ∈ blanks.
Proof.
  unfold blanks. rewrite !elem_of_cons, elem_of_nil. destruct c as [[] [] [] [] [] [] [] []]; vm_compute; split; try (by auto 10);
    intros H; repeat (destruct H as [H|H]; try discriminate); done.
Qed.
Lemma digit_digit c : isdigit c = true <-> c ∈ digit_chars.
Proof.
  unfold digit_chars. cbn. rewrite !elem_of_cons, elem_of_nil.
  destruct c as [[] [] [] [] [] [] [] []]; vm_compute; split; try (by auto 20);
    intros H; repeat (destruct H as [H|H]; try discriminate); done.
Qed.
Lemma skip_blanks ws s : Forall (fun c => c ∈ blanks) ws -> skip_space (ws ++ s) = skip_space s.
Proof. induction 1 as [|c ws Hc _ IH]; [done|]. cbn. by rewrite (proj2 (blank_space c) Hc). Qed.
Lemma split_blanks s : exists ws, s = ws ++ skip_space s /\ Forall (fun c => c ∈ blanks) ws /\
  forall c t, skip_space s = c :: t -> isspace c = false.
Proof.
  induction s as [|c s (ws & E & F & N)]; [exists []; split_and!; try done; constructor|]. cbn.
  destruct (isspace c) eqn:B.
  - exists (c :: ws). split; [cbn; by f_equal|]. split; [constructor; [by apply blank_space|done]|done].
  - exists []. split; [done|]. split; [constructor|]. by intros ? ? [= <- <-].
Qed.
Lemma split_digits s : exists text ds rest, s = text ++ rest /\ written text ds /\
  (forall c rest', rest = c :: rest' -> c ∉ digit_chars) /\ (forall c t, s = c :: t -> isdigit c = true -> text <> []).
Proof.
  induction s as [|c s (text & ds & rest & E & W & R & _)]; [exists [], [], []; split_and!; try done; constructor|].
  destruct (isdigit c) eqn:D.
  - pose proof (proj1 (digit_digit c) D) as M. apply elem_of_list_lookup in M as [d M].
    exists (c :: text), (d :: ds), rest. split; [cbn; by f_equal|]. split; [by constructor|]. done.
  - exists [], [], (c :: s). split; [done|]. split; [constructor|]. split; [|by intros ? ? [= <- <-]; rewrite D].
    intros c' rest' [= <- <-] M. apply digit_digit in M. congruence.
Qed.
Lemma no_digit_of rest : (forall c rest', rest = c :: rest' -> c ∉ digit_chars) -> no_digit rest.
Proof.
  intros N. destruct rest as [|c rest]; [done|]. cbn. destruct (isdigit c) eqn:D; [|done].
  exfalso. eapply N; [done|]. by apply digit_digit.
Qed.
(** The value before it is cut to 64 bits. *)
Definition raw_value (s : cstr) : option Z :=
  let s1 := skip_space s in
  let '(neg, s2) :=
    match s1 with
    | c :: t => if Ascii.eqb c "-" then (true, t) else if Ascii.eqb c "+" then (false, t) else (false, s1)
    | [] => (false, s1)
    end in
  match s2 with
  | c :: _ => if isdigit c then let v := fst (take_digits 0 s2) in Some (if neg then - v else v) else None
  | [] => None
  end.
Lemma raw_begins s n : begins_with s n -> raw_value s = Some n.
Proof.
  intros (ws & neg & text & ds & rest & -> & F & W & Ne & R & ->). unfold raw_value. cbv zeta. rewrite skip_blanks by done.
  destruct text as [|c text]; [done|]. inversion W as [|? d ? ds' Hc W']; subst.
  pose proof (digit_char _ _ Hc) as (Hd & _ & _ & Hsp & Hm & Hp).
  pose proof (take_digits_written _ _ _ W (no_digit_of _ R) 0) as Ht. cbn [app] in Ht.
  destruct neg as [[]|]; cbn [sign_of app list_ascii_of_string skip_space].
  - change ($"-" ++ c :: text ++ rest) with ("-"%char :: c :: text ++ rest). cbn [skip_space app].
    change (isspace "-") with false. cbv iota. change (Ascii.eqb "-" "-") with true. cbv iota beta. rewrite Hd, Ht. done.
  - change ($"+" ++ c :: text ++ rest) with ("+"%char :: c :: text ++ rest). cbn [skip_space app].
    change (isspace "+") with false. cbv iota. change (Ascii.eqb "+" "-") with false. change (Ascii.eqb "+" "+") with true.
    cbv iota beta. rewrite Hd, Ht. done.
  - rewrite Hsp. apply Ascii.eqb_neq in Hm, Hp. rewrite Hm, Hp, Hd, Ht. done.
Qed.
Lemma raw_leads s n : raw_value s = Some n -> begins_with s n.
Proof.
  unfold raw_value. cbv zeta. destruct (split_blanks s) as (ws & E & F & _). revert E. generalize (skip_space s) as s1. intros s1 ->.
  assert (K : forall neg s2, match s2 with c :: _ => if isdigit c then let v := fst (take_digits 0 s2) in
      Some (with_sign neg v) else None | [] => None end = Some n -> s1 = sign_of neg ++ s2 ->
      begins_with (ws ++ s1) n).
  { intros neg s2 E ->. destruct (split_digits s2) as (text & ds & rest & Es & W & R & Ne).
    destruct s2 as [|c s2]; [done|]. destruct (isdigit c) eqn:D; [|done]. cbv zeta in E.
    specialize (Ne _ _ eq_refl D). rewrite Es in E |- *. rewrite (take_digits_written _ _ _ W (no_digit_of _ R)) in E.
    injection E as <-. exists ws, neg, text, ds, rest. split_and!; done. }
  destruct s1 as [|c t]; [done|]. destruct (Ascii.eqb_spec c "-") as [->|].
  { intros E. apply (K (Some true) t); [|done]. exact E. }
  destruct (Ascii.eqb_spec c "+") as [->|].
  { intros E. apply (K (Some false) t); [|done]. exact E. }
  intros E. apply (K None (c :: t)); [|done]. exact E.
Qed.
Lemma leading_raw s n : leading s n <-> n = default 0 (raw_value s).
Proof.
  split.
  - intros [B|[-> N]]; [by rewrite (raw_begins _ _ B)|]. destruct (raw_value s) as [m|] eqn:E; [|done].
    apply raw_leads in E. by apply N in E.
  - intros ->. destruct (raw_value s) as [m|] eqn:E; [left; by apply raw_leads|]. right. split; [done|].
    intros m B. apply raw_begins in B. congruence.
Qed.
Lemma leading_fun s n m : leading s n -> leading s m -> n = m.
Proof. rewrite !leading_raw. by intros -> ->. Qed.
Lemma leading_exists s : exists n, leading s n.
Proof. exists (default 0 (raw_value s)). by apply leading_raw. Qed.
Lemma strtoll_leading s n : leading s n -> fst (strtoll s) = saturated n.
Proof.
  intros L. apply leading_raw in L as ->. unfold strtoll, raw_value. cbv zeta.
  destruct (skip_space s) as [|c t]; [done|].
  set (p := if Ascii.eqb c "-" then (true, t) else if Ascii.eqb c "+" then (false, t) else (false, c :: t)).
  destruct p as [neg s2]. destruct s2 as [|c' s2]; [done|]. destruct (isdigit c'); [|done].
  destruct (take_digits 0 (c' :: s2)). cbn. by rewrite clamp_saturated.
Qed.
Section last.
Context `{Libc}.
Lemma any_text_last a argv a' its1 its2 t i s T d p :
  fresh a -> argus_parse a argv = Ok (Returned 0, a') ->
  assigned a argv (its1 ++ Call t i (Some s) :: its2) -> (forall x, x ∈ its2 -> ~ touches t i x) ->
  decls a !! t = Some T -> T !! i = Some d -> d_handler d = Some HInt ->
  find_option_by_active_path a' p = Ok (Some (t, i)) ->
  exists n x, leading s n /\ (forall m, leading s m -> m = n) /\ argus_get a' p = Ok (x, set_err a' 0) /\
    as_int64 x = Ok (saturated n).
Proof.
  intros Hf E Ha Hn HT Hd Hh Hp.
  destruct (last_wins _ _ _ _ _ _ _ _ _ _ _ Hf E Ha Hn HT Hd Hh) as (x & o' & Hx & Ho & Hv).
  { unfold scalar. auto. }
  destruct (found_access _ _ _ _ _ Hp Ho) as (Hg & _). destruct (leading_exists s) as [n L]. exists n, x.
  split; [done|]. split; [intros m M; by eapply leading_fun|]. rewrite Hg, Hv. split; [done|].
  inversion Hx; subst. rewrite (strtoll_leading _ _ L). apply of_int64_as.
  unfold saturated. change (2 ^ 63) with 9223372036854775808. lia.
Qed.
Lemma to_int32_low n : low_half n (to_int32 n).
Proof.
  unfold low_half, to_int32, two32. change (2 ^ 31) with 2147483648. change (2 ^ 32) with 4294967296.
  pose proof (Z.mod_pos_bound n 4294967296 ltac:(lia)) as B. pose proof (Z.div_mod n 4294967296 ltac:(lia)) as D.
  destruct (Z.ltb_spec (n mod 4294967296) 2147483648).
  - split; [lia|]. exists (n / 4294967296). lia.
  - split; [lia|]. exists (n / 4294967296 + 1). lia.
Qed.
Lemma low_half_fun n m m' : low_half n m -> low_half n m' -> m = m'.
Proof.
  unfold low_half. change (2 ^ 31) with 2147483648. change (2 ^ 32) with 4294967296.
  intros [B [k ->]] [B' [k' E]]. assert (k = k') by lia. lia.
Qed.
Lemma of_int64_low n m : low_half n m -> as_int (of_int64 n) = Ok m.
Proof.
  intros L. unfold as_int, of_int64. f_equal. apply (low_half_fun n); [|done].
  destruct (to_int32_low (n mod two64)) as [B [k E]]. split; [done|]. unfold two64 in *.
  pose proof (Z.div_mod n 18446744073709551616 ltac:(lia)) as D. change (2 ^ 32) with 4294967296 in *.
  exists (k + n / 18446744073709551616 * 4294967296). lia.
Qed.
Lemma range_low lo hi o h n m : value o = of_int64 n -> low_half n m ->
  exists st ev, run_validator (VRange lo hi) (ArgOption o) h = Ok (st, ev) /\ (st = 0 <-> lo <= m <= hi).
Proof.
  intros V L. pose proof (of_int64_low _ _ L) as Hi. rewrite <- V in Hi. apply decided.
  - simpl. unfold range_validator. rewrite Hi. cbn [rbind]. destruct (_ <? _); [eauto|]. destruct (_ || _); eauto.
  - simpl. rewrite Hi. split; [|eauto]. intros (x & [= <-] & ?). done.
Qed.
Lemma choice_low l o h n m : value o = of_int64 n -> low_half n m ->
  exists st ev, run_validator (VChoicesInt l) (ArgOption o) h = Ok (st, ev) /\ (st = 0 <-> m ∈ l).
Proof.
  intros V L. pose proof (of_int64_low _ _ L) as Hi. rewrite <- V in Hi. apply decided.
  - simpl. unfold choices_int_validator. rewrite Hi. cbn [rbind]. destruct (existsb _ _); eauto.
  - simpl. rewrite Hi. split; [|eauto]. intros (x & [= <-] & ?). done.
Qed.
End last.
