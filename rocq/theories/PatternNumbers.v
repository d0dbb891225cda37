(** * The patterns for numbers *)
From stdpp Require Import list.
From Verif Require Import RegexRun RegexProofs SpecPatterns RegexLang.

(** Takes the language of a hypothesis apart. *)
Ltac unlang H :=
  lazymatch type of H with
  | lang REmpty _ => cbn in H; subst
  | lang (RSeq ?a REmpty) _ => apply (proj1 (lang_empty_r _ _)) in H; unlang H
  | lang (RSeq (RSet _) _) _ =>
      let c := fresh "c" in let v := fresh "v" in let Hc := fresh "Hc" in
      apply lang_char in H; destruct H as (c & v & -> & Hc & H); unlang H
  | lang (RSeq _ _) _ =>
      let u := fresh "u" in let v := fresh "v" in let Hu := fresh "Hu" in
      apply lang_seq in H; destruct H as (u & v & -> & Hu & H); unlang Hu; unlang H
  | lang (RRep 0 (Some 1%nat) _) _ => apply lang_option in H
  | lang (RRep _ _ (RSet _)) _ => apply lang_chars in H; destruct H as [H ?Hk]
  | lang (RSet _) _ => let c := fresh "c" in destruct H as (c & -> & H)
  | _ => idtac
  end.
(** The set of a hypothesis. *)
Ltac set_of H set :=
  lazymatch type of H with
  | in_set ?k _ = true => apply (same_set_ok k set) in H; [|vm_compute; reflexivity]
  | chars ?k _ => apply (made_chars k set) in H; [|vm_compute; reflexivity]
  end.
Ltac is_char H := apply in_one in H; subst.
Ltac to_set set :=
  lazymatch goal with
  | |- in_set ?k _ = true => apply (same_set_ok k set); [vm_compute; reflexivity|]
  | |- chars ?k _ => apply (made_chars k set); [vm_compute; reflexivity|]
  end.

Lemma in_range_set a b c : in_set (CSet false [(a, b)]) c = true <-> code a <= code c <= code b.
Proof. unfold in_set, in_range. cbn [negated ranges existsb fst snd]. rewrite xorb_false_l, orb_false_r, andb_true_iff, !Z.leb_le. lia. Qed.
Lemma digit_code c : c ∈ digits <-> 48 <= code c <= 57.
Proof.
  rewrite <- (same_set_ok (CSet false [("0"%char, "9"%char)]) digits) by (vm_compute; reflexivity).
  rewrite in_range_set. reflexivity.
Qed.
Lemma number_app a b : number (a ++ b) = number a * 10 ^ Z.of_nat (length b) + number b.
Proof.
  unfold number. rewrite fold_left_app. generalize (fold_left (fun n c => 10 * n + (code c - 48)) a 0).
  induction b as [|c b IH] using rev_ind; intros n; [cbn; lia|].
  rewrite !fold_left_app, app_length. cbn [fold_left length]. rewrite IH.
  replace (Z.of_nat (length b + 1)) with (Z.succ (Z.of_nat (length b))) by lia. rewrite Z.pow_succ_r by lia. lia.
Qed.
Lemma number_cons c t : number (c :: t) = (code c - 48) * 10 ^ Z.of_nat (length t) + number t.
Proof. apply (number_app [c] t). Qed.
Lemma number_bound t : made_of digits t -> 0 <= number t < 10 ^ Z.of_nat (length t).
Proof.
  induction t as [|c t IH]; intros H; [cbn; lia|]. apply Forall_cons in H as [Hc H]. specialize (IH H).
  rewrite number_cons. apply digit_code in Hc. cbn [length]. rewrite Nat2Z.inj_succ, Z.pow_succ_r by lia. nia.
Qed.
Lemma number_lower c t : made_of digits (c :: t) -> c <> "0"%char -> 10 ^ Z.of_nat (length t) <= number (c :: t).
Proof.
  intros H Hc. apply Forall_cons in H as [Hd H]. apply number_bound in H. rewrite number_cons. apply digit_code in Hd.
  assert (code c <> 48). { intros E. apply Hc. unfold code in E. rewrite <- (ascii_N_embedding c). replace (N_of_ascii c) with 48%N by lia. reflexivity. }
  nia.
Qed.
Lemma code_inj c d : code c = code d -> c = d.
Proof. intros E. unfold code in E. rewrite <- (ascii_N_embedding c), <- (ascii_N_embedding d). f_equal. lia. Qed.

Definition nonzero : cstr := $"123456789".
Lemma nonzero_code c : c ∈ nonzero <-> 49 <= code c <= 57.
Proof.
  rewrite <- (same_set_ok (CSet false [("1"%char, "9"%char)]) nonzero) by (vm_compute; reflexivity).
  rewrite in_range_set. reflexivity.
Qed.
Lemma nonzero_number t : made_of digits t -> (exists c v, t = c :: v /\ c ∈ nonzero) <-> plain_number t /\ 0 < number t.
Proof.
  intros Hd. split.
  - intros (c & v & -> & Hc). pose proof Hc as Hc'. apply nonzero_code in Hc'. split.
    + split; [auto|]. split; [discriminate|]. intros [= ->]. change (code "0") with 48 in Hc'. lia.
    + rewrite number_cons. apply Forall_cons in Hd as [_ Hd]. apply number_bound in Hd. nia.
  - intros [(_ & Hn & Hz) H]. destruct t as [|c v]; [congruence|]. exists c, v. split; [auto|].
    apply Forall_cons in Hd as [Hc _]. apply digit_code in Hc. apply nonzero_code.
    destruct (Z.eq_dec (code c) 48) as [E|E]; [|lia]. assert (c = "0"%char) as -> by (apply code_inj; auto).
    rewrite Hz in H by auto. vm_compute in H. discriminate.
Qed.

Lemma pos_int_lang s : satisfies RE_POS_INT s <-> line positive_integer s.
Proof.
  pattern_lang RE_POS_INT. split.
  - intros H. unlang H. set_of Hc nonzero. set_of H digits. apply nonzero_number.
    + apply Forall_cons. split; [|auto]. apply nonzero_code in Hc. apply digit_code. lia.
    + eauto.
  - intros H. pose proof H as [(Hd & _) _]. apply (nonzero_number t Hd) in H as (c & v & -> & Hc). apply Forall_cons in Hd as [_ Hd].
    apply lang_char. exists c, v. split; [auto|]. split; [to_set nonzero; auto|]. apply lang_empty_r, lang_chars.
    split; [to_set digits; auto|]. split; [lia|auto].
Qed.
Lemma neg_int_lang s : satisfies RE_NEG_INT s <-> line negative_integer s.
Proof.
  pattern_lang RE_NEG_INT. split.
  - intros H. unlang H. is_char Hc. set_of Hc0 nonzero. set_of H digits. exists (c0 :: v0). split; [auto|]. apply nonzero_number.
    + apply Forall_cons. split; [|auto]. apply nonzero_code in Hc0. apply digit_code. lia.
    + eauto.
  - intros (n & -> & H). pose proof H as [(Hd & _) _]. apply (nonzero_number n Hd) in H as (c & v & -> & Hc).
    apply Forall_cons in Hd as [_ Hd]. apply lang_char. do 2 eexists. split; [reflexivity|]. split; [reflexivity|].
    apply lang_char. exists c, v. split; [auto|]. split; [to_set nonzero; auto|]. apply lang_empty_r, lang_chars.
    split; [to_set digits; auto|]. split; [lia|auto].
Qed.
Lemma hex_lang s : satisfies RE_HEX s <-> line hex_number s.
Proof.
  pattern_lang RE_HEX. split.
  - intros H. unlang H. is_char Hc. is_char Hc0. set_of H hexes. exists v0. split; [auto|]. split; [auto|].
    destruct Hk as [Hk _]. destruct v0; cbn in Hk; [lia|discriminate].
  - intros (n & -> & H & Hn). apply lang_char. do 2 eexists. split; [reflexivity|]. split; [reflexivity|].
    apply lang_char. do 2 eexists. split; [reflexivity|]. split; [reflexivity|]. apply lang_empty_r, lang_chars.
    split; [to_set hexes; auto|]. split; [|auto]. destruct n; [congruence|cbn; lia].
Qed.
Lemma float_lang s : satisfies RE_FLOAT s <-> line decimal s.
Proof.
  pattern_lang RE_FLOAT. split.
  - intros H. unlang H. set_of Hu0 digits. set_of H digits.
    exists u, (u0 ++ u1 ++ v).
    assert (Hb : v <> []) by (destruct Hk0; destruct v; cbn in *; [lia|discriminate]).
    assert (Hs : u = [] \/ u = $"+" \/ u = $"-").
    { destruct Hu as [->|(c & -> & Hc)]; [auto|]. set_of Hc $"+-". apply elem_of_cons in Hc as [->|Hc]; [auto|].
      apply elem_of_list_singleton in Hc as ->. auto. }
    destruct Hu1 as [->|(c & -> & Hc)].
    + exists [], (u0 ++ v). split; [auto|]. split; [auto|]. split; [apply Forall_nil; auto|].
      split; [apply Forall_app; auto|]. split; [destruct u0; [auto|discriminate]|]. auto.
    + is_char Hc. exists u0, v. split; [auto|]. split; [auto|]. auto 6.
  - intros (sign & body & a & b & -> & Hs & Ha & Hb & Hn & Hbody).
    apply lang_seq. exists sign, body. split; [auto|]. split.
    { apply lang_option. destruct Hs as [->|[->| ->]]; [auto|right; cbn; eauto|right; cbn; eauto]. }
    assert (Hl : lang (RRep 1 None (RSet (CSet false [("0"%char, "9"%char)]))) b).
    { apply lang_chars. split; [to_set digits; auto|]. split; [destruct b; [congruence|cbn; lia]|auto]. }
    destruct Hbody as [-> | ->].
    + apply lang_seq. exists [], b. split; [auto|]. split; [apply lang_chars; split; [apply Forall_nil; auto|split; [cbn; lia|auto]]|].
      apply lang_seq. exists [], b. split; [auto|]. split; [apply lang_option; auto|]. apply lang_empty_r. auto.
    + apply lang_seq. exists a, ($"." ++ b). split; [auto|]. split; [apply lang_chars; split; [to_set digits; auto|split; [cbn; lia|auto]]|].
      apply lang_seq. exists $".", b. split; [auto|]. split; [apply lang_option; right; cbn; eauto|]. apply lang_empty_r. auto.
Qed.

Lemma within_exact n k : within n (Some n) k -> k = n.
Proof. intros [H1 H2]. lia. Qed.
Lemma chars_cons k c t : chars k (c :: t) <-> in_set k c = true /\ chars k t.
Proof. unfold chars; rewrite Forall_cons; reflexivity. Qed.
Lemma port_lang s : satisfies RE_PORT s <-> line port s.
Proof.
  pattern_lang RE_PORT. rewrite lang_empty_r. split.
  - intros H. rewrite !lang_alt in H.
    assert (Hg : exists c v, t = c :: v /\ made_of digits v /\ 49 <= code c <= 57 /\ 1 <= number t <= 65535).
    { destruct H as [H|[H|[H|[H|[H|H]]]]]; unlang H.
      - set_of Hc nonzero. set_of H digits. apply nonzero_code in Hc. exists c, v. split; [auto|]. split; [auto|]. split; [auto|].
        rewrite number_cons. apply number_bound in H. destruct Hk as [_ Hk].
        destruct v as [|? [|? [|? [|? v]]]]; cbn [length] in *; try lia; change (Z.of_nat 0) with 0 in *; change (Z.of_nat 1) with 1 in *;
          change (Z.of_nat 2) with 2 in *; change (Z.of_nat 3) with 3 in *; lia.
      - apply in_range_set in Hc. change (code "1") with 49 in Hc. change (code "5") with 53 in Hc. set_of H digits.
        exists c, v. split; [auto|]. split; [auto|]. split; [lia|]. rewrite number_cons. apply number_bound in H.
        apply within_exact in Hk. rewrite Hk in *. change (Z.of_nat 4) with 4 in *. lia.
      - is_char Hc. apply in_range_set in Hc0. change (code "0") with 48 in Hc0. change (code "4") with 52 in Hc0. set_of H digits.
        eexists _, _. split; [reflexivity|]. split; [apply Forall_cons; split; [apply digit_code; lia|auto]|].
        change (code "6") with 54. split; [lia|]. rewrite !number_cons. apply number_bound in H.
        apply within_exact in Hk. cbn [length]. rewrite Hk in *. change (Z.of_nat 4) with 4 in *. change (Z.of_nat 3) with 3 in *.
        change (code "6") with 54. lia.
      - is_char Hc. is_char Hc0. apply in_range_set in Hc1. change (code "0") with 48 in Hc1. change (code "4") with 52 in Hc1. set_of H digits.
        eexists _, _. split; [reflexivity|].
        split; [apply Forall_cons; split; [apply digit_code; vm_compute; intuition discriminate|apply Forall_cons; split; [apply digit_code; lia|auto]]|].
        change (code "6") with 54. split; [lia|]. rewrite !number_cons. apply number_bound in H.
        apply within_exact in Hk. cbn [length]. rewrite Hk in *. change (Z.of_nat 4) with 4 in *. change (Z.of_nat 3) with 3 in *. change (Z.of_nat 2) with 2 in *.
        change (code "6") with 54. change (code "5") with 53. lia.
      - is_char Hc. is_char Hc0. is_char Hc1. apply in_range_set in Hc2, H. change (code "0") with 48 in *. change (code "2") with 50 in Hc2.
        change (code "9") with 57 in H.
        eexists _, _. split; [reflexivity|]. split.
        { repeat (apply Forall_cons; split; [apply digit_code; first [lia|vm_compute; intuition discriminate]|]). apply Forall_nil; auto. }
        change (code "6") with 54. split; [lia|]. rewrite !number_cons. cbn [length number fold_left].
        change (Z.of_nat 4) with 4 in *. change (Z.of_nat 3) with 3 in *. change (Z.of_nat 2) with 2 in *. change (Z.of_nat 1) with 1 in *. change (Z.of_nat 0) with 0.
        change (code "6") with 54. change (code "5") with 53. lia.
      - is_char Hc. is_char Hc0. is_char Hc1. is_char Hc2. apply in_range_set in H. change (code "0") with 48 in *. change (code "5") with 53 in H.
        eexists _, _. split; [reflexivity|]. split.
        { repeat (apply Forall_cons; split; [apply digit_code; first [lia|vm_compute; intuition discriminate]|]). apply Forall_nil; auto. }
        change (code "6") with 54. split; [lia|]. rewrite !number_cons. cbn [length number fold_left].
        change (Z.of_nat 4) with 4 in *. change (Z.of_nat 3) with 3 in *. change (Z.of_nat 2) with 2 in *. change (Z.of_nat 1) with 1 in *. change (Z.of_nat 0) with 0.
        change (code "6") with 54. change (code "5") with 53. change (code "3") with 51. lia. }
    destruct Hg as (c & v & -> & Hv & Hc & Hn). split; [|auto].
    apply (nonzero_number (c :: v)); [apply Forall_cons; split; [apply digit_code; lia|auto]|]. exists c, v. split; [auto|]. apply nonzero_code. auto.
  - intros [Hp Hn]. pose proof Hp as (Hd & _). destruct (proj2 (nonzero_number t Hd)) as (c & v & -> & Hc); [split; [auto|lia]|].
    pose proof Hd as Hd'. apply Forall_cons in Hd' as [_ Hv]. apply nonzero_code in Hc.
    assert (Hl : (length v <= 4)%nat).
    { assert (Hz : c <> "0"%char) by (intros ->; change (code "0") with 48 in Hc; lia).
      pose proof (number_lower c v Hd Hz) as Hb.
      destruct (Nat.le_gt_cases (length v) 4) as [|Hgt]; [auto|]. exfalso.
      assert (10 ^ 5 <= 10 ^ Z.of_nat (length v)) by (apply Z.pow_le_mono_r; lia). lia. }
    rewrite !lang_alt. destruct (Nat.eq_dec (length v) 4%nat) as [E|E].
    + right. destruct v as [|d1 [|d2 [|d3 [|d4 [|? v]]]]]; try discriminate E. clear E Hl Hp Hd.
      repeat (apply Forall_cons in Hv as [?Hd Hv]). apply digit_code in Hd, Hd0, Hd1, Hd2. rewrite !number_cons in Hn.
      cbn [length number fold_left] in Hn.
      change (Z.of_nat 4) with 4 in *. change (Z.of_nat 3) with 3 in *. change (Z.of_nat 2) with 2 in *. change (Z.of_nat 1) with 1 in *. change (Z.of_nat 0) with 0 in *.
      assert (Hq : code c <= 53 \/ code c = 54 /\ (code d1 <= 52 \/ code d1 = 53 /\ (code d2 <= 52 \/ code d2 = 53 /\ (code d3 <= 50 \/ code d3 = 51 /\ code d4 <= 53))))
        by lia.
      assert (Hds : forall d, 48 <= code d <= 57 -> in_set (CSet false [("0"%char, "9"%char)]) d = true).
      { intros d Hx. apply in_range_set. exact Hx. }
      destruct Hq as [Hq|[E1 [Hq|[E2 [Hq|[E3 [Hq|[E4 Hq]]]]]]]].
      * left. apply lang_char. exists c, [d1; d2; d3; d4]. split; [auto|]. split; [apply in_range_set; change (code "1") with 49; change (code "5") with 53; lia|].
        apply lang_empty_r, lang_chars. split; [|split; cbn; lia]. rewrite !chars_cons. split_and!; auto. apply Forall_nil; auto.
      * right; left. assert (c = "6"%char) as -> by (apply code_inj; auto).
        apply lang_char. do 2 eexists. split; [reflexivity|]. split; [reflexivity|].
        apply lang_char. do 2 eexists. split; [reflexivity|]. split; [apply in_range_set; change (code "0") with 48; change (code "4") with 52; lia|].
        apply lang_empty_r, lang_chars. split; [|split; cbn; lia]. rewrite !chars_cons. split_and!; auto. apply Forall_nil; auto.
      * right; right; left. assert (c = "6"%char) as -> by (apply code_inj; auto). assert (d1 = "5"%char) as -> by (apply code_inj; auto).
        do 2 (apply lang_char; do 2 eexists; split; [reflexivity|]; split; [reflexivity|]).
        apply lang_char. do 2 eexists. split; [reflexivity|]. split; [apply in_range_set; change (code "0") with 48; change (code "4") with 52; lia|].
        apply lang_empty_r, lang_chars. split; [|split; cbn; lia]. rewrite !chars_cons. split_and!; auto. apply Forall_nil; auto.
      * right; right; right; left. assert (c = "6"%char) as -> by (apply code_inj; auto). assert (d1 = "5"%char) as -> by (apply code_inj; auto).
        assert (d2 = "5"%char) as -> by (apply code_inj; auto).
        do 3 (apply lang_char; do 2 eexists; split; [reflexivity|]; split; [reflexivity|]).
        apply lang_char. do 2 eexists. split; [reflexivity|]. split; [apply in_range_set; change (code "0") with 48; change (code "2") with 50; lia|].
        apply lang_empty_r. exists d4. auto.
      * right; right; right; right. assert (c = "6"%char) as -> by (apply code_inj; auto). assert (d1 = "5"%char) as -> by (apply code_inj; auto).
        assert (d2 = "5"%char) as -> by (apply code_inj; auto). assert (d3 = "3"%char) as -> by (apply code_inj; auto).
        do 4 (apply lang_char; do 2 eexists; split; [reflexivity|]; split; [reflexivity|]).
        apply lang_empty_r. exists d4. split; [auto|]. apply in_range_set. change (code "0") with 48. change (code "5") with 53. lia.
    + left. apply lang_char. exists c, v. split; [auto|]. split; [apply in_range_set; change (code "1") with 49; change (code "9") with 57; lia|].
      apply lang_empty_r, lang_chars. split; [to_set digits; auto|]. split; lia.
Qed.
