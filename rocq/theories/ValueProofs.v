(** * Proofs about scalar texts and handlers *)
From Coq Require Import Lia Decimal DecimalString DecimalZ DecimalFacts DecimalPos.
From Verif Require Import Validate Api LibProofs FrameProofs SpecGrammar GrammarProofs GrammarLemmas
  SpecAfter SpecValues AfterProofs CallProofs.

(** ** Boolean words *)
Lemma same_letter_lower x y : same_letter x y -> tolower x = tolower y.
Proof.
  intros [->|(i & [[H1 H2]|[H1 H2]])]; [done|..].
  - do 26 (destruct i as [|i]; [injection H1 as <-; injection H2 as <-; reflexivity|]). done.
  - do 26 (destruct i as [|i]; [injection H1 as <-; injection H2 as <-; reflexivity|]). done.
Qed.
Lemma lower_same_letter x : same_letter x (tolower x).
Proof.
  destruct x as [[] [] [] [] [] [] [] []]; vm_compute tolower; try (by left);
  right;
  match goal with |- exists i, (_ !! i = Some ?x /\ _) \/ _ =>
    let r := eval vm_compute in (list_find (eq x) capitals) in
    match r with Some (?i, _) => exists i; left; split; reflexivity end end.
Qed.
Lemma lower_lower_letter w : (forall b, w ∈ words b -> map tolower w = w).
Proof.
  intros b. destruct b; intros Hw; repeat (apply elem_of_cons in Hw as [->|Hw]; [reflexivity|]);
    by apply elem_of_nil in Hw.
Qed.
Lemma bool_word_lower s b : bool_word s b <-> map tolower s ∈ words b.
Proof.
  split.
  - intros (w & Hw & HF). assert (map tolower s = map tolower w) as ->.
    { clear Hw. induction HF; [done|]. simpl. f_equal; [by apply same_letter_lower|].
      done. }
    by rewrite (lower_lower_letter w b Hw).
  - intros Hw. exists (map tolower s). split; [done|]. clear. induction s; simpl; constructor; auto.
    apply lower_same_letter.
Qed.

Lemma string_to_bool_word s b : string_to_bool s = Some b <-> bool_word s b.
Proof.
  rewrite bool_word_lower. unfold string_to_bool.
  assert (HT : existsb (fun t => strcmp (map tolower s) t =? 0) true_values = true <->
               map tolower s ∈ words true).
  { rewrite existsb_exists. split.
    - intros (t & Ht & E). rewrite strcmp_eqb in E; apply bool_decide_eq_true in E as ->.
      repeat (destruct Ht as [<-|Ht]; [vm_compute; repeat (first [left|right])|]); destruct Ht.
    - intros Hw. exists (map tolower s). split; [|rewrite strcmp_eqb; by apply bool_decide_eq_true].
      unfold words in Hw. repeat (apply elem_of_cons in Hw as [->|Hw]; [vm_compute; tauto|]).
      by apply elem_of_nil in Hw. }
  assert (HF : existsb (fun t => strcmp (map tolower s) t =? 0) false_values = true <->
               map tolower s ∈ words false).
  { rewrite existsb_exists. split.
    - intros (t & Ht & E). rewrite strcmp_eqb in E; apply bool_decide_eq_true in E as ->.
      repeat (destruct Ht as [<-|Ht]; [vm_compute; repeat (first [left|right])|]); destruct Ht.
    - intros Hw. exists (map tolower s). split; [|rewrite strcmp_eqb; by apply bool_decide_eq_true].
      unfold words in Hw. repeat (apply elem_of_cons in Hw as [->|Hw]; [vm_compute; tauto|]).
      by apply elem_of_nil in Hw. }
  assert (Hd : map tolower s ∈ words true -> map tolower s ∈ words false -> False).
  { generalize (map tolower s) as w. intros w H1 H2. unfold words in *.
    repeat (apply elem_of_cons in H1 as [->|H1]; [vm_compute in H2;
      repeat (apply elem_of_cons in H2 as [H2|H2]; [discriminate H2|]); by apply elem_of_nil in H2|]).
    by apply elem_of_nil in H1. }
  assert (Hl : forall b, map tolower s ∈ words b -> (length s <= 5)%nat).
  { intros b0 Hw. rewrite <- (map_length tolower s). destruct b0; unfold words in Hw;
      repeat (apply elem_of_cons in Hw as [->|Hw]; [vm_compute; lia|]); by apply elem_of_nil in Hw. }
  destruct (Nat.ltb_spec 5 (length s)).
  { split; [done|]. intros Hw. apply Hl in Hw. lia. }
  destruct (existsb _ true_values); [|destruct (existsb _ false_values)].
  - split; [intros [= <-]; by apply HT|]. intros Hw. f_equal. destruct b; [done|]. destruct Hd; [by apply HT|done].
  - split; [intros [= <-]; by apply HF|]. intros Hw. f_equal. destruct b; [|done]. apply HT in Hw. done.
  - split; [done|]. intros Hw. destruct b; [apply HT in Hw|apply HF in Hw]; done.
Qed.
Lemma bool_word_fun s b1 b2 : bool_word s b1 -> bool_word s b2 -> b1 = b2.
Proof. rewrite <- !string_to_bool_word. congruence. Qed.

(** ** Integers *)
Lemma digit_char d c : digit_chars !! d = Some c -> isdigit c = true /\ code c - 48 = Z.of_nat d /\ (d < 10)%nat /\
  isspace c = false /\ c <> "-"%char /\ c <> "+"%char.
Proof.
  intros E. do 10 (destruct d as [|d]; [injection E as <-; repeat split; try done; lia|]). done.
Qed.
Definition no_digit (s : cstr) : Prop := match s with c :: _ => isdigit c = false | [] => True end.
Lemma take_digits_written s ds rest : written s ds -> no_digit rest -> forall acc,
  take_digits acc (s ++ rest) = (digits_value acc ds, rest).
Proof.
  intros Hw Hr. induction Hw as [|c d s ds Hc Hw IH]; intros acc; simpl.
  - destruct rest as [|c rest]; [done|]. simpl in *. by rewrite Hr.
  - apply digit_char in Hc as (-> & Hv & _). rewrite IH. f_equal. f_equal. lia.
Qed.
Lemma clamp_saturated z : clamp_long z = saturated z.
Proof.
  unfold clamp_long, saturated, LONG_MIN, LONG_MAX.
  change (2 ^ 63) with 9223372036854775808.
  destruct (Z.ltb_spec z (-9223372036854775808)); [lia|].
  destruct (Z.ltb_spec 9223372036854775807 z); lia.
Qed.
Definition sign_text (neg : option bool) : cstr :=
  match neg with None => [] | Some true => $"-" | Some false => $"+" end.
Definition signed_value (neg : option bool) (v : Z) : Z :=
  match neg with Some true => - v | _ => v end.
Lemma strtoll_written neg s ds rest : written s ds -> s <> [] -> no_digit rest ->
  strtoll (sign_text neg ++ s ++ rest) = (saturated (signed_value neg (digits_value 0 ds)), rest).
Proof.
  intros Hw Hne Hr. destruct s as [|c s]; [done|]. inversion Hw as [|? d ? ds' Hc Hw']; subst.
  pose proof (digit_char _ _ Hc) as (Hd & _ & _ & Hsp & Hm & Hp).
  pose proof (take_digits_written _ _ _ Hw Hr 0) as Ht.
  unfold strtoll. cbv zeta. destruct neg as [[]|]; cbn [app] in Ht; simpl sign_text.
  - cbn [app skip_space]. change (isspace "-") with false. cbv iota.
    change (Ascii.eqb "-" "-") with true. cbv iota beta. rewrite Hd. rewrite Ht. by rewrite clamp_saturated.
  - cbn [app skip_space]. change (isspace "+") with false. cbv iota.
    change (Ascii.eqb "+" "-") with false. change (Ascii.eqb "+" "+") with true.
    cbv iota beta. rewrite Hd. rewrite Ht. by rewrite clamp_saturated.
  - cbn [app skip_space]. rewrite Hsp.
    apply Ascii.eqb_neq in Hm, Hp. rewrite Hm, Hp, Hd. rewrite Ht. by rewrite clamp_saturated.
Qed.

(** The decimal text of an integer is a sequence of digits after the sign. *)
Lemma uint_written u : exists ds,
  written (list_ascii_of_string (NilEmpty.string_of_uint u)) ds /\
  (forall p, digits_value (Zpos p) ds = Zpos (Pos.of_uint_acc u p)) /\
  digits_value 0 ds = Z.of_N (Pos.of_uint u).
Proof.
  induction u as [|u IH|u IH|u IH|u IH|u IH|u IH|u IH|u IH|u IH|u IH].
  { exists []. repeat split; constructor. }
  all: destruct IH as (ds & Hw & Ha & H0).
  - exists (0%nat :: ds). split; [constructor; [reflexivity|exact Hw]|]. split.
    + intros p. cbn [digits_value Pos.of_uint_acc]. rewrite <- Ha. f_equal. lia.
    + cbn [digits_value Pos.of_uint]. exact H0.
  - exists (1%nat :: ds). split; [constructor; [reflexivity|exact Hw]|]. split.
    + intros p. cbn [digits_value Pos.of_uint_acc]. rewrite <- Ha. f_equal. lia.
    + cbn [digits_value Pos.of_uint Z.of_N]. rewrite <- Ha. done.
  - exists (2%nat :: ds). split; [constructor; [reflexivity|exact Hw]|]. split.
    + intros p. cbn [digits_value Pos.of_uint_acc]. rewrite <- Ha. f_equal. lia.
    + cbn [digits_value Pos.of_uint Z.of_N]. rewrite <- Ha. done.
  - exists (3%nat :: ds). split; [constructor; [reflexivity|exact Hw]|]. split.
    + intros p. cbn [digits_value Pos.of_uint_acc]. rewrite <- Ha. f_equal. lia.
    + cbn [digits_value Pos.of_uint Z.of_N]. rewrite <- Ha. done.
  - exists (4%nat :: ds). split; [constructor; [reflexivity|exact Hw]|]. split.
    + intros p. cbn [digits_value Pos.of_uint_acc]. rewrite <- Ha. f_equal. lia.
    + cbn [digits_value Pos.of_uint Z.of_N]. rewrite <- Ha. done.
  - exists (5%nat :: ds). split; [constructor; [reflexivity|exact Hw]|]. split.
    + intros p. cbn [digits_value Pos.of_uint_acc]. rewrite <- Ha. f_equal. lia.
    + cbn [digits_value Pos.of_uint Z.of_N]. rewrite <- Ha. done.
  - exists (6%nat :: ds). split; [constructor; [reflexivity|exact Hw]|]. split.
    + intros p. cbn [digits_value Pos.of_uint_acc]. rewrite <- Ha. f_equal. lia.
    + cbn [digits_value Pos.of_uint Z.of_N]. rewrite <- Ha. done.
  - exists (7%nat :: ds). split; [constructor; [reflexivity|exact Hw]|]. split.
    + intros p. cbn [digits_value Pos.of_uint_acc]. rewrite <- Ha. f_equal. lia.
    + cbn [digits_value Pos.of_uint Z.of_N]. rewrite <- Ha. done.
  - exists (8%nat :: ds). split; [constructor; [reflexivity|exact Hw]|]. split.
    + intros p. cbn [digits_value Pos.of_uint_acc]. rewrite <- Ha. f_equal. lia.
    + cbn [digits_value Pos.of_uint Z.of_N]. rewrite <- Ha. done.
  - exists (9%nat :: ds). split; [constructor; [reflexivity|exact Hw]|]. split.
    + intros p. cbn [digits_value Pos.of_uint_acc]. rewrite <- Ha. f_equal. lia.
    + cbn [digits_value Pos.of_uint Z.of_N]. rewrite <- Ha. done.
Qed.
Lemma uint_zero_written u : exists ds,
  written (list_ascii_of_string (NilZero.string_of_uint u)) ds /\
  list_ascii_of_string (NilZero.string_of_uint u) <> [] /\
  digits_value 0 ds = Z.of_uint u.
Proof.
  destruct (uint_written u) as (ds & Hw & _ & H0).
  destruct u; [exists [0%nat]; split; [repeat constructor|done]|..]; exists ds; done.
Qed.
Lemma decimal_written n : exists (neg : bool) s ds, written s ds /\ s <> [] /\
  decimal_text n = (if neg then $"-" else []) ++ s /\ n = (if neg then - digits_value 0 ds else digits_value 0 ds).
Proof.
  pose proof (DecimalZ.of_to n) as Hn. unfold decimal_text. destruct (Z.to_int n) as [u|u] eqn:E.
  - destruct (uint_zero_written u) as (ds & Hw & Hne & H0).
    exists false, (list_ascii_of_string (NilZero.string_of_uint u)), ds. split_and!; try done. simpl in *.
    congruence.
  - destruct (uint_zero_written u) as (ds & Hw & Hne & H0).
    exists true, (list_ascii_of_string (NilZero.string_of_uint u)), ds. split_and!; try done. simpl in *.
    congruence.
Qed.
Lemma strtoll_decimal n rest : no_digit rest -> strtoll (decimal_text n ++ rest) = (saturated n, rest).
Proof.
  intros Hr. destruct (decimal_written n) as (neg & s & ds & Hw & Hne & -> & Hv).
  rewrite <- app_assoc. destruct neg.
  - pose proof (strtoll_written (Some true) s ds rest Hw Hne Hr) as E. simpl signed_value in E. by rewrite <- Hv in E.
  - pose proof (strtoll_written None s ds rest Hw Hne Hr) as E. simpl signed_value in E. by rewrite <- Hv in E.
Qed.

Lemma of_int64_as n : - 2 ^ 63 <= n < 2 ^ 63 -> as_int64 (of_int64 n) = Ok n.
Proof.
  intros Hn. unfold as_int64, of_int64, to_int64, two64. f_equal.
  change (2 ^ 63) with 9223372036854775808 in *. rewrite Z.mod_mod by lia.
  destruct (decide (0 <= n)).
  - rewrite Z.mod_small by lia. destruct (Z.ltb_spec n 9223372036854775808); lia.
  - rewrite <- (Z_mod_plus_full n 1). rewrite Z.mod_small by lia.
    destruct (Z.ltb_spec (n + 1 * 18446744073709551616) 9223372036854775808); lia.
Qed.
Lemma of_int64_as_int n : - 2 ^ 31 <= n < 2 ^ 31 -> as_int (of_int64 n) = Ok n.
Proof.
  intros Hn. unfold as_int, of_int64, to_int32, two64, two32. f_equal.
  change (2 ^ 31) with 2147483648 in *.
  rewrite <- (Znumtheory.Zmod_div_mod 4294967296 18446744073709551616 n) by (try lia; exists 4294967296; lia).
  destruct (decide (0 <= n)).
  - rewrite Z.mod_small by lia. destruct (Z.ltb_spec n 2147483648); lia.
  - rewrite <- (Z_mod_plus_full n 1). rewrite Z.mod_small by lia.
    destruct (Z.ltb_spec (n + 1 * 4294967296) 2147483648); lia.
Qed.
Lemma saturated_range n : - 2 ^ 63 <= saturated n < 2 ^ 63.
Proof. unfold saturated. lia. Qed.
Lemma saturated_id n : - 2 ^ 63 <= n < 2 ^ 63 -> saturated n = n.
Proof. unfold saturated. lia. Qed.

(** ** The scalar handlers *)
Section libc.
Context `{Libc}.

Lemma scalar_run f v act s st s' : scalar f -> run_handler act f v s = Ok (st, s') ->
  (st = 0 /\ h_heap s' = h_heap s /\ exists x, denoted f v x /\ h_opt s' = with_value (h_opt s) x) \/
  (f = HBool /\ (forall w b, v = Some w -> ~ bool_word w b) /\ st = 12 /\ h_opt s' = h_opt s /\
   h_heap s' = h_heap s /\ exists m, h_log s' = h_log s ++ [EDiag 12 m]).
Proof.
  intros [->|[->|[->|[->| ->]]]] E; simpl in E.
  - injection E as <- <-. left. split; [done|]. split; [done|]. eexists. split; [apply dn_flag|done].
  - unfold bool_handler in E. destruct v as [w|].
    + destruct (string_to_bool w) as [b|] eqn:Eb.
      * injection E as <- <-. left. split; [done|]. split; [done|].
        eexists. split; [apply dn_bool; by apply string_to_bool_word|done].
      * injection E as <- <-. right. split; [done|]. split; [|by eauto 6].
        intros ? b [= <-] Hb. apply string_to_bool_word in Hb. congruence.
    + injection E as <- <-. right. split; [done|]. split; [done|]. by eauto 6.
  - unfold string_handler in E. injection E as <- <-. left. split; [done|]. split; [done|].
    destruct v; eexists; (split; [constructor|done]).
  - destruct v as [w|]; [|done]. injection E as <- <-. left. split; [done|]. split; [done|].
    eexists. split; [constructor|done].
  - destruct v as [w|]; [|done]. injection E as <- <-. left. split; [done|]. split; [done|].
    eexists. split; [constructor|done].
Qed.
Lemma scalar_runs f v act s x : denoted f v x ->
  run_handler act f v s = Ok (0, Hst (with_value (h_opt s) x) (h_heap s) (h_log s)).
Proof.
  destruct 1; simpl; try done.
  unfold bool_handler. apply string_to_bool_word in H0. by rewrite H0.
Qed.
Lemma denoted_fun f v x y : denoted f v x -> denoted f v y -> x = y.
Proof.
  intros Hx Hy. apply (scalar_runs _ _ 0 (Hst (blank TOption None NUL None 0 None 0 None) fresh_heap [])) in Hx, Hy.
  rewrite Hx in Hy. by injection Hy.
Qed.
Lemma bool_refused w act s : (forall b, ~ bool_word w b) ->
  run_handler act HBool (Some w) s = Ok (12, Hst (h_opt s) (h_heap s) (h_log s ++ [EDiag 12 [MText $"Invalid boolean value: '"; MStr (Some w); MText $"'. Expected 'true' or 'false'"]])).
Proof.
  intros Hn. simpl. destruct (string_to_bool w) as [b|] eqn:Eb.
  { apply string_to_bool_word in Eb. by destruct (Hn b). }
  done.
Qed.
End libc.
